(** Model of the BLOCKHASH host function, core/silkworm/execution/evm.cpp:517-541. *)
From Verif Require Import Base RlpModel TxModel BlockModel ChainModel.

Section BlockHash.
  Variable read_header : N -> bytes -> option block_header.  (* StateBuffer::read_header *)
  Variable header : block_header.                            (* evm_.block_.header *)

  (** evm.cpp:532-538: the loop from [i] while [i < new_size], [k] rounds left; reads of hashes[i - 1] and writes of
      hashes[i] are within the vector. *)
  Fixpoint fill (k : nat) (i : N) (hashes : list bytes) : list bytes :=
    match k with
    | O => hashes
    | S k =>
      match read_header (sub64 (hd_number header) i) (nth (N.to_nat (i - 1)) hashes (zeros 32)) with
      | None => hashes
      | Some h => fill k (i + 1) (firstn (N.to_nat i) hashes ++ hd_parent_hash h :: skipn (N.to_nat i + 1) hashes)
      end
    end.

  (** evm.cpp:517-541: the cache [hashes] is evm_.block_hashes_. None: hashes[new_size - 1] outside the vector, or an
      assertion that fails (new_size > 256). *)
  Definition get_block_hash (hashes : list bytes) (n : N) : option (bytes * list bytes) :=
    let new_size := sub64 (hd_number header) n in
    if 256 <? new_size then None
    else
      let hashes := match hashes with [] => [hd_parent_hash header] | _ => hashes end in
      let old_size := N.of_nat (length hashes) in
      let hashes := if old_size <? new_size then hashes ++ repeat (zeros 32) (N.to_nat (new_size - old_size)) else hashes in
      let hashes := fill (N.to_nat (new_size - old_size)) old_size hashes in
      match new_size with
      | 0 => None
      | _ => match nth_error hashes (N.to_nat (new_size - 1)) with Some h => Some (h, hashes) | None => None end
      end.

  (** The queries of the transactions of one block, which share the EVM object. *)
  Fixpoint queries (hashes : list bytes) (ns : list N) : option (list bytes) :=
    match ns with
    | [] => Some []
    | n :: t => match get_block_hash hashes n with
                | None => None
                | Some (h, hashes) => match queries hashes t with Some l => Some (h :: l) | None => None end
                end
    end.
End BlockHash.
