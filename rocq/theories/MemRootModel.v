(** Model of account_storage_root and state_root_hash of MemoryBuffer (core/silkworm/state/memory_buffer.cpp:227-278) and of
    db::Buffer (db/silkworm/db/buffer.cpp:106-137, 284-303).

    The hash maps are visited in an arbitrary order, given as lists. A std::map from bytes32 is a table: operator[] overwrites, and
    iteration is in the order of the keys. An inner map that is absent and one that is empty have the same root. *)
From stdpp Require Import gmap.
From Verif Require Import Base RlpModel TypesModel UtilModel TrieModel DbTable EtlModel MemBufModel BufferModel.

Definition std_map (l : list entry) : table := put_all [] l.

Section Root.
  Variable keccak : bytes -> bytes.
  (** memory_buffer.cpp:227-257, buffer.cpp:106-137 *)
  Definition account_storage_root (storage : list (N * N)) : option bytes :=
    match storage with
    | [] => Some kEmptyRoot
    | _ =>
      let storage_rlp := std_map (map (fun e => (keccak (be_fixed 32 (fst e)), encode_bytes (zeroless_view (be_fixed 32 (snd e))))) storage) in
      option_map fst (build keccak false storage_rlp)
    end.
  Fixpoint account_entries (accs : list (N * account)) (storage : N -> N -> list (N * N)) : option (list entry) :=
    match accs with
    | [] => Some []
    | (a, acc) :: t =>
      match account_storage_root (storage a (a_incarnation acc)), account_entries t storage with
      | Some storage_root, Some es => Some ((keccak (be_fixed 20 a), account_rlp acc storage_root) :: es)
      | _, _ => None
      end
    end.
  Definition root_of_accounts (accs : list (N * account)) (storage : N -> N -> list (N * N)) : option bytes :=
    match account_entries accs storage with Some es => option_map fst (build keccak false (std_map es)) | None => None end.
  (** memory_buffer.cpp:259-278 *)
  Definition mem_root (accs : list (N * account)) (storage : N -> N -> list (N * N)) : option bytes :=
    match accs with [] => Some kEmptyRoot | _ => root_of_accounts accs storage end.
  (** buffer.cpp:284-303: deleted accounts are passed over. *)
  Definition has_value (accs : list (N * option account)) : list (N * account) :=
    concat (map (fun e => match snd e with Some acc => [(fst e, acc)] | None => [] end) accs).
  Definition buf_root (accs : list (N * option account)) (storage : N -> N -> list (N * N)) : option bytes :=
    match accs with [] => Some kEmptyRoot | _ => root_of_accounts (has_value accs) storage end.
End Root.

(** The maps visited in some order, each key once. *)
Definition slot_order (st : gmap (N * N * N) N) (storage : N -> N -> list (N * N)) : Prop :=
  forall a i, base.NoDup (map fst (storage a i)) /\ forall l v, In (l, v) (storage a i) <-> st !! (a, i, l) = Some v.
Definition account_order {A} (m : gmap N A) (accs : list (N * A)) : Prop :=
  base.NoDup (map fst accs) /\ forall a x, In (a, x) accs <-> m !! a = Some x.
