(** Specification of the genesis block: Yellow Paper, appendix I, and the genesis file of the Ethereum clients. *)
From Verif Require Import Base RlpSpec TypesModel BlockModel StateRootSpec.

(** A parsed genesis file. The allocations are given in the order of the file. *)
Record genesis := mkGenesis {
  g_alloc : option (list (N * N));
  g_extra : bytes;
  g_mix : option bytes;
  g_difficulty : N;
  g_gas_limit : N;
  g_timestamp : N;
  g_nonce : N;
  g_config : bytes
}.
Definition allocations (g : genesis) : list (N * N) := match g_alloc g with Some l => l | None => [] end.
Fixpoint balance_of (l : list (N * N)) (a : N) : option N :=
  match l with [] => None | (b, v) :: t => if b =? a then Some v else balance_of t a end.

(** The state at the genesis block: the allocated balances. *)
Definition genesis_state (g : genesis) : state :=
  mkState (fun a => match balance_of (allocations g) a with Some v => Some (mkAccount 0 v kEmptyHash 0) | None => None end) (fun _ _ _ => 0).
(** The hash of the RLP of the empty list. *)
Definition empty_list_hash : bytes := be_fixed 32 0x1dcc4de8dec75d7aab85b567b6ccd41ad312451b948a7413f0a142fd40d49347.
(** Its header: number 0, no parent, no author, no blocks, transactions or receipts, the nonce as eight bytes, most significant first. *)
Definition genesis_block (g : genesis) (state_root : bytes) : block_header :=
  mkHdr (be_fixed 32 0) empty_list_hash (be_fixed 20 0) state_root empty_root empty_root (be_fixed 256 0) (g_difficulty g) 0 (g_gas_limit g) 0 (g_timestamp g) (g_extra g)
    (match g_mix g with Some h => h | None => be_fixed 32 0 end) (be_fixed 8 (g_nonce g)) None.
Definition with_nonce (h : block_header) (nonce : bytes) : block_header :=
  mkHdr (hd_parent_hash h) (hd_ommers_hash h) (hd_beneficiary h) (hd_state_root h) (hd_transactions_root h) (hd_receipts_root h) (hd_logs_bloom h) (hd_difficulty h) (hd_number h) (hd_gas_limit h) (hd_gas_used h)
    (hd_timestamp h) (hd_extra_data h) (hd_mix_hash h) nonce (hd_base_fee h).

(** Field widths; each address at most once. *)
Definition genesis_ok (g : genesis) : Prop :=
  NoDup (map fst (allocations g)) /\ (forall a v, In (a, v) (allocations g) -> a < 2 ^ 160 /\ v < 2 ^ 256)
  /\ wf_bytes (g_extra g) /\ blen (g_extra g) < 2 ^ 32 /\ match g_mix g with Some h => length h = 32%nat /\ wf_bytes h | None => True end
  /\ g_difficulty g < 2 ^ 256 /\ g_gas_limit g < 2 ^ 64 /\ g_timestamp g < 2 ^ 64 /\ g_nonce g < 2 ^ 64.
