(** C84: the outcome of a block depends only on the world it starts from. *)
From stdpp Require Import gmap.
From Coq Require Import ZArith.
From Verif Require Import Base RlpModel TxModel BlockModel TypesModel ChainModel StateModel StateSpec MemBufModel MemBufSpec EvmModel EvmSpec EvmCases ProcessorModel ProcessorCases ScriptSpec ScriptEvm RunSpec RunProofs RunCodes RunDefined RunCases.

(** Two stores that hold the same world, with whatever incarnations, leftover storage and iteration orders of the hash sets, give the receipts and the verdict of the
    reference machine, which has none of these. *)
Theorem C84_determined keccak code_of rev pre_gas pre_run block_hash interp fuel root config header ts ommers db1 db2 iterate1 iterate2 w rs v ops w' :
  holds keccak code_of db1 w ops -> holds keccak code_of db2 w ops -> visits iterate1 -> visits iterate2 ->
  reference_block keccak rev pre_gas pre_run block_hash interp fuel root config header ts ommers w = Some (rs, v, ops, w') ->
  exists kept1 kept2,
    run_block keccak db1 rev pre_gas pre_run block_hash interp fuel iterate1 root config header ts ommers = Some (rs, v, kept1)
    /\ run_block keccak db2 rev pre_gas pre_run block_hash interp fuel iterate2 root config header ts ommers = Some (rs, v, kept2).
Proof. exact (determined keccak code_of rev pre_gas pre_run block_hash interp fuel root config header ts ommers db1 db2 iterate1 iterate2 w rs v ops w'). Qed.
Print Assumptions C84_determined.

(** The reference machine answers for every block of prevalidated transactions, unless the block contains the sequence refuted under C24. *)
Theorem C84_defined keccak rev pre_gas pre_run block_hash interp strict fuel root config header ts ommers w :
  lawful strict interp -> (1024 <= fuel)%nat -> Forall (fits rev) ts -> coded w ->
  (exists rs v ops w', reference_block keccak rev pre_gas pre_run block_hash interp fuel root config header ts ommers w = Some (rs, v, ops, w'))
  \/ revives keccak rev pre_gas pre_run block_hash interp fuel root config header ts ommers w.
Proof. exact (defined keccak rev pre_gas pre_run block_hash interp strict fuel root config header ts ommers w). Qed.
Print Assumptions C84_defined.

(** A valid block executed over a MemoryBuffer that holds a world and written back, in whatever orders, leaves a buffer that holds the world the reference machine
    reaches, ready for the next block; but for the two cases of C27 in which incarnations are forgotten. *)
Theorem C84_written_back keccak code_of rev pre_gas pre_run block_hash interp fuel root config header ts ommers room m past iterate w rs ops w' :
  mem_ok keccak code_of room m past w -> coded w -> N.of_nat (length ops) <= room -> codes_ok keccak code_of ops -> visits iterate ->
  reference_block keccak rev pre_gas pre_run block_hash interp fuel root config header ts ommers w = Some (rs, kOk, ops, w') -> incarnations_kept past w w' ->
  exists s, run_block keccak (mem_reader m) rev pre_gas pre_run block_hash interp fuel iterate root config header ts ommers = Some (rs, kOk, Some s)
    /\ coded (next_world w') /\ forall n sord oord, order_ok s sord oord ->
    mem_ok keccak code_of (room - N.of_nat (length ops)) (write_to_db s m n sord oord) (next_past past w w') (next_world w').
Proof. exact (executed_and_written keccak code_of rev pre_gas pre_run block_hash interp fuel root config header ts ommers room m past iterate w rs ops w'). Qed.
Print Assumptions C84_written_back.

(** Every block leaves committed storage, and code only where it was or in contracts it created: the histories for which C24-C29 are proved are those of all blocks. *)
Theorem C84_lawful keccak code_of rev pre_gas pre_run block_hash interp fuel root config header ts ommers past db w rs v ops w' :
  starts code_of db w -> coded w -> reference_block keccak rev pre_gas pre_run block_hash interp fuel root config header ts ommers w = Some (rs, v, ops, w') ->
  incarnations_kept past w w' -> block_ok past w w' /\ coded (next_world w').
Proof. exact (always_writable keccak code_of rev pre_gas pre_run block_hash interp fuel root config header ts ommers past db w rs v ops w'). Qed.
Print Assumptions C84_lawful.

(** The program the reference machine runs is the code: on IntraBlockState over any store it gives the receipts and the verdict of the processor and leaves the state
    it writes back. *)
Theorem C84_program keccak iterate db rev pre_gas pre_run block_hash interp fuel header root config ts ommers :
  match run_block keccak db rev pre_gas pre_run block_hash interp fuel iterate root config header ts ommers with
  | Some (rs, v, kept) => exists s d x, crun_script keccak iterate db (t_block keccak rev pre_gas pre_run block_hash interp fuel header root config ts ommers) (ibs_new, []) = ((Some (rs, v), d), (s, x))
      /\ kept = match v with kOk => Some s | _ => None end
  | None => fst (fst (crun_script keccak iterate db (t_block keccak rev pre_gas pre_run block_hash interp fuel header root config ts ommers) (ibs_new, []))) = None
  end.
Proof. exact (program_is_code keccak iterate db rev pre_gas pre_run block_hash interp fuel header root config ts ommers). Qed.
Print Assumptions C84_program.

(** The hypotheses are met: a block with a call and a creation (57 calls) over a plain store and over a buffer where the contract is at another incarnation. *)
Example C84_witness : exists rs ops w, r_reference r_world = Some (rs, kOk, ops, w) /\ holds r_hash r_code_of p_db r_world ops /\ holds r_hash r_code_of (mem_reader r_mem) r_world ops
  /\ N.of_nat (length ops) <= 1000 /\ codes_ok r_hash r_code_of ops /\ incarnations_kept (fun _ => false) r_world w.
Proof. exact r_witness. Qed.
Example C84_witness_outcome : match r_reference r_world with
  | Some (rs, v, ops, w) => v = kOk /\ map rc_cumulative_gas_used rs = [63600; 116816] /\ length ops = 57%nat /\ forallb (fun c => bytes_eqb (r_code_of (r_hash c)) c) (flat_map op_code ops) = true
      /\ map (fun a => ac_balance (w_get w a)) [100; 200; 300; 99; 98] = [8831770; 60; 20; 2062500000000350448; 1500000000000000000] /\ w_current w 200 5 = 9 /\ contract_in w 200 = true
  | None => False end.
Proof. exact r_defined. Qed.
Example C84_witness_orders : visits elements /\ visits (fun X => List.rev (elements X)). Proof. exact r_visits. Qed.
Example C84_witness_buffer : mem_ok r_hash r_code_of 1000 r_mem (fun _ => false) r_world. Proof. exact r_mem_ok. Qed.
Example C84_witness_coded : coded r_world. Proof. exact r_coded. Qed.
Example C84_witness_lawful : lawful true e_interp. Proof. exact e_lawful. Qed.
Example C84_witness_fits : Forall (fits EVMC_LONDON) [p_call; p_create]. Proof. exact r_fits. Qed.
