(** Specification of the HashState stage. *)
From Verif Require Import Base RlpModel TypesModel DbTable DbModel DbSpec EtlModel EtlSpec UnwindModel HashStateModel.

Section Spec.
  Variable keccak : bytes -> bytes.
  (** The hashed tables of d' hold exactly the plain records of d: accounts under the hash of the address, code hashes under the
      hash of the address and the incarnation, and slots under the hash of the address and the incarnation, with the location
      hashed (the form that DbTrieLoader reads). *)
  Definition accounts_hashed (d d' : database) : Prop := forall k v, In (k, v) (d' kHashedAccounts) <-> exists a, length a = 20%nat /\ In (a, v) (d kPlainState) /\ k = keccak a.
  Definition codes_hashed (d d' : database) : Prop := forall k v, In (k, v) (d' kContractCode) <-> exists a i, length a = 20%nat /\ length i = 8%nat /\ In (a ++ i, v) (d kPlainContractCode) /\ k = keccak a ++ i.
  Definition storage_hashed (d d' : database) : Prop := forall k v, In (k, v) (d' kHashedStorage) <-> exists a i l s, length a = 20%nat /\ length i = 8%nat /\ length l = 32%nat /\ In (a ++ i, l ++ s) (d kPlainState) /\ k = keccak a ++ i /\ v = keccak l ++ s.
End Spec.

(** Key and value lengths of the tables the stage reads. *)
Record shapes (d : database) : Prop := {
  sh_state : forall k v, In (k, v) (d kPlainState) -> length k = 20%nat \/ (length k = 28%nat /\ (32 <= length v)%nat);
  sh_codes : forall k v, In (k, v) (d kPlainContractCode) -> length k = 28%nat;
  sh_acc_changes : forall k v, In (k, v) (d kPlainAccountChangeSet) -> (exists m, m < 2 ^ 64 /\ k = be_fixed 8 m) /\ (20 <= length v)%nat;
  sh_st_changes : forall k v, In (k, v) (d kPlainStorageChangeSet) -> length k = 36%nat /\ (32 <= length v)%nat
}.
(** Sizes that the collector can count. *)
Definition collectable (t : table) : Prop := Forall fits t /\ total_size t < 2 ^ 60.
(** The hash has 32 bytes. *)
Definition hash_length (keccak : bytes -> bytes) : Prop := forall b, length (keccak b) = 32%nat.
(** No two of the given strings have the same hash. *)
Definition distinct_hashes (keccak : bytes -> bytes) (P : bytes -> Prop) : Prop := forall a b, P a -> P b -> keccak a = keccak b -> a = b.
(** Some block after p has a record of the account in its change set. *)
Definition changed_after (d : database) (p : N) (a : bytes) : Prop := exists m s, p < m /\ m < 2 ^ 64 /\ In (be_fixed 8 m, a ++ s) (d kPlainAccountChangeSet).
(** [old]: the account records at block p; the change sets of the later blocks name every account that differs. *)
Record account_changes (d : database) (old : bytes -> option bytes) (p : N) : Prop := {
  ac_changes : forall a, length a = 20%nat -> lookup (d kPlainState) a <> old a -> changed_after d p a;
  ac_decode : forall a v, length a = 20%nat -> lookup (d kPlainState) a = Some v -> exists i, extract_incarnation v = Ok i
}.
