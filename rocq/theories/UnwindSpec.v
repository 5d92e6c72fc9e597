(** Specification of the unwinding of the execution stage. *)
From stdpp Require Import gmap.
From Verif Require Import Base RlpModel TypesModel TypesSpec UtilModel DbTable DbModel DbSpec BufferModel BufferSpec UnwindModel.

(** [acct m a]: the account at a at the end of block m. The change sets of the blocks after n hold what C47 says, the state table the
    accounts of the last block; incarnations do not fall; contracts have code. *)
Record account_history (d : database) (acct : N -> N -> option account) (n top : N) : Prop := {
  ah_records : forall k v, In (k, v) (d kPlainAccountChangeSet) ->
    exists m a s, k = be_fixed 8 m /\ v = be_fixed 20 a ++ s /\ m <= top /\ a < 2 ^ 160 /\ (n < m -> s = before_image (acct (m - 1) a) (acct m a));
  ah_changes : forall m a, n < m -> m <= top -> a < 2 ^ 160 -> acct m a <> acct (m - 1) a -> exists s, In (be_fixed 8 m, be_fixed 20 a ++ s) (d kPlainAccountChangeSet);
  ah_current : forall a v, a < 2 ^ 160 -> In (be_fixed 20 a, v) (d kPlainState) <-> exists x, acct top a = Some x /\ v = encode_for_storage x false;
  ah_codes : forall m a x, n <= m -> m <= top -> acct m a = Some x -> 0 < a_incarnation x -> lookup (d kPlainContractCode) (be_fixed 20 a ++ be_fixed 8 (a_incarnation x)) = Some (a_code_hash x);
  ah_plain : forall m a x, n <= m -> m <= top -> acct m a = Some x -> a_incarnation x = 0 -> a_code_hash x = kEmptyHash;
  ah_incs : forall m m' a x y, n <= m -> m <= m' -> m' <= top -> acct m a = Some x -> acct m' a = Some y -> a_incarnation x <= a_incarnation y;
  ah_wf : forall m a x, acct m a = Some x -> wf_account x
}.
(** [slot m a i l]: the value of slot l of contract (a, i) at the end of block m. *)
Record slot_records (d : database) (slot : N -> N -> N -> N -> N) (n top : N) : Prop := {
  sr_records : forall k v, In (k, v) (d kPlainStorageChangeSet) ->
    exists m a i l s, k = be_fixed 8 m ++ be_fixed 20 a ++ be_fixed 8 i /\ v = be_fixed 32 l ++ s /\ m <= top /\ a < 2 ^ 160 /\ i < 2 ^ 64 /\ l < 2 ^ 256
      /\ (n < m -> s = zeroless_view (be_fixed 32 (slot (m - 1) a i l)));
  sr_changes : forall m a i l, n < m -> m <= top -> a < 2 ^ 160 -> i < 2 ^ 64 -> l < 2 ^ 256 -> slot m a i l <> slot (m - 1) a i l ->
    exists s, In (be_fixed 8 m ++ be_fixed 20 a ++ be_fixed 8 i, be_fixed 32 l ++ s) (d kPlainStorageChangeSet);
  sr_current : forall a i l s, a < 2 ^ 160 -> i < 2 ^ 64 -> l < 2 ^ 256 ->
    In (be_fixed 20 a ++ be_fixed 8 i, be_fixed 32 l ++ s) (d kPlainState) <-> slot top a i l <> 0 /\ s = zeroless_view (be_fixed 32 (slot top a i l));
  sr_wf : forall m a i l, slot m a i l < 2 ^ 256
}.
(** Both change sets have a record of block n itself. *)
Definition records_of (d : database) (n : N) : Prop :=
  (exists v, In (be_fixed 8 n, v) (d kPlainAccountChangeSet)) /\ (exists k v, In (be_fixed 8 n ++ k, v) (d kPlainStorageChangeSet)).
(** Only slot l of the contract is ever set or changed after block n. *)
Definition single_slot (d : database) (n a i l : N) : Prop :=
  (forall v, In (be_fixed 20 a ++ be_fixed 8 i, v) (d kPlainState) -> exists s, v = be_fixed 32 l ++ s)
  /\ (forall m v, n < m -> In (be_fixed 8 m ++ be_fixed 20 a ++ be_fixed 8 i, v) (d kPlainStorageChangeSet) -> exists s, v = be_fixed 32 l ++ s).
