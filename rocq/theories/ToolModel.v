(** Model of the commands that check a database: cmd/check_blockhashes.cpp, check_tx_lookup.cpp, check_hashstate.cpp and
    check_pow.cpp.

    Command lines, opening the environment, progress messages and requests to stop are left out. What a command reports on its log
    is a list of reports; an exception that reaches main is [Throws] (main logs it), undefined behaviour [Undefined]. *)
From Coq Require Import Strings.String.
From Verif Require Import Base RlpModel BlockModel UtilModel DbTable DbModel IndexModel EthashModel.

(** ** cmd/check_blockhashes.cpp *)
Inductive hash_report :=
| HashNotFound (hash : bytes) (block : N)                      (* lines 56-61 *)
| HashMismatch (hash : bytes) (hash_height block_height : N).  (* lines 62-67 *)
(** cmd/check_blockhashes.cpp:50-73: [canonical] is the rest of CanonicalHashes. *)
Fixpoint check_hashes (numbers canonical : table) : out (list hash_report) :=
  match canonical with
  | [] => Done []
  | (key, hash) :: rest =>
    do found := match lookup numbers hash with
                | None => do n := load_big_u64 key in Done [HashNotFound hash n]
                | Some value =>
                  if negb (bytes_eqb value key) then
                    do hash_height := load_big_u64 key in
                    do block_height := load_big_u64 value in
                    Done [HashMismatch hash hash_height block_height]
                  else Done []
                end in
    do later := check_hashes numbers rest in
    Done (found ++ later)
  end.
Definition check_blockhashes (d : database) : out (list hash_report) := check_hashes (d kHeaderNumbers) (d kCanonicalHashes).

(** ** cmd/check_tx_lookup.cpp *)
Inductive lookup_report :=
| LookupNotFound (block i : N) (hash : bytes)                  (* lines 106-111 *)
| LookupMismatch (hash : bytes) (expected actual : N)          (* lines 117-121 *)
| LookupCount (block claimed read : N).                        (* lines 124-127 *)
Section CheckLookup.
  Variable keccak : bytes -> bytes.
  (** cmd/check_tx_lookup.cpp:113-115; [buffer] is left empty by the padding of a view outside of it, so it can be any. *)
  Definition compact_number (value : bytes) : out N :=
    match left_pad (Outside value) 8 [] with
    | Some (v, _) => load_big_u64 v
    | None => Undefined
    end.
  (** cmd/check_tx_lookup.cpp:91-122: [p] is the position in the table of transactions; the record that is not found inside of the
      loop (lines 95-100) cannot occur, since the loop has just seen that there is one. *)
  Fixpoint check_transactions (lookups p : table) (block expected count i : N) : out (list lookup_report * N) :=
    match p with
    | [] => Done ([], i)
    | (_, rlp) :: rest =>
      if i <? count then
        let hash := keccak rlp in
        do found := match lookup lookups hash with
                    | None => Done [LookupNotFound block i hash]
                    | Some value =>
                      do actual := compact_number value in
                      Done (if negb (actual =? expected) then [LookupMismatch hash expected actual] else [])
                    end in
        do (later, i) := check_transactions lookups rest block expected count (i + 1) in
        Done (found ++ later, i)
      else Done ([], i)
    end.
  (** cmd/check_tx_lookup.cpp:75-140: the number expected is counted, one for each body. *)
  Fixpoint check_bodies (lookups txs bodies : table) (expected : N) : out (list lookup_report) :=
    match bodies with
    | [] => Done []
    | (key, value) :: rest =>
      do block := load_big_u64 key in
      do (body, _) := decode_stored value in
      do found := if 0 <? sb_count body then
                    do (l, i) := check_transactions lookups (find txs (be_fixed 8 (sb_base body))) block expected (sb_count body) 0 in
                    Done (l ++ (if negb (i =? sb_count body) then [LookupCount block (sb_count body) i] else []))
                  else Done [] in
      do later := check_bodies lookups txs rest ((expected + 1) mod 2 ^ 64) in
      Done (found ++ later)
    end.
  Definition check_tx_lookup (d : database) : out (list lookup_report) := check_bodies (d kTxLookup) (d kEthTx) (d kBlockBodies) 0.
End CheckLookup.

(** ** cmd/check_hashstate.cpp *)
Inductive state_report :=
| StateMismatch (expected actual : bytes)                      (* lines 74-78, 116-120 *)
| CodeNotFound (key : bytes).                                  (* lines 111-115 *)
Section CheckHashState.
  Variable keccak : bytes -> bytes.
  (** cmd/check_hashstate.cpp:57-79: find throws when there is no record. *)
  Fixpoint check_accounts (hashed state : table) : out (list state_report) :=
    match state with
    | [] => Done []
    | (key, value) :: rest =>
      if negb (Nat.eqb (List.length key) 20) then check_accounts hashed rest
      else match lookup hashed (keccak key) with
           | None => Throws
           | Some actual => if negb (bytes_eqb actual value) then Done [StateMismatch value actual] else check_accounts hashed rest
           end
    end.
  (** cmd/check_hashstate.cpp:81-99: a key of 20 bytes; the incarnation is copied from the 8 bytes behind its last one, of which the
      string has only the terminator. *)
  Fixpoint check_storage (hashed state : table) : out (list state_report) :=
    match state with
    | [] => Done []
    | (key, value) :: rest => if negb (Nat.eqb (List.length key) 20) then check_storage hashed rest else Undefined
    end.
  (** cmd/check_hashstate.cpp:101-122 *)
  Fixpoint check_codes (hashed codes : table) : out (list state_report) :=
    match codes with
    | [] => Done []
    | (key, value) :: rest =>
      if negb (Nat.eqb (List.length key) 28) then check_codes hashed rest
      else
        let hashed_key := keccak (firstn 20 key) ++ firstn 8 (skipn 20 key) in
        match lookup hashed hashed_key with
        | None => do later := check_codes hashed rest in Done (CodeNotFound hashed_key :: later)
        | Some actual => if negb (bytes_eqb actual value) then Done [StateMismatch value actual] else check_codes hashed rest
        end
    end.
  (** cmd/check_hashstate.cpp:140-146 *)
  Definition check_hashstate (d : database) : out (list state_report) :=
    do a := check_accounts (d kHashedAccounts) (d kPlainState) in
    do s := check_storage (d kHashedStorage) (d kPlainState) in
    do c := check_codes (d kContractCode) (d kPlainContractCode) in
    Done (a ++ s ++ c).
End CheckHashState.

(** ** cmd/check_pow.cpp *)
Inductive pow_report := AboveTarget (block : N) | WrongMixHash (block : N).
Section CheckPow.
  Variable keccak : bytes -> bytes.
  Definition from_option {A} (x : option A) : out A := match x with Some a => Done a | None => Undefined end.
  (** cmd/check_pow.cpp:107-111: the context of the epoch of the block; memory is there for the cache. *)
  Definition epoch_for (c : epoch_context) (block_num : N) : out epoch_context :=
    if negb (ec_epoch_number c =? block_num / epoch_length) then
      do p := from_option (create_epoch_context true (block_num / epoch_length)) in from_option p
    else Done c.
  (** cmd/check_pow.cpp:113-123 *)
  Definition canonical_header (d : database) (block_num : N) : out block_header :=
    match lookup (d kCanonicalHashes) (block_key block_num) with
    | None => Throws
    | Some hash =>
      do header := read_header d block_num (to_bytes32 hash) in
      match header with None => Throws | Some h => Done h end
    end.
  (** cmd/check_pow.cpp:125-152 *)
  Definition check_seal (c : epoch_context) (h : block_header) (block_num : N) : out (option pow_report) :=
    let nonce := be_to_N (hd_nonce h) in
    let boundary256 := get_boundary_from_diff (hd_difficulty h) in
    let seal_hash := keccak (encode_hdr h true) in
    do (final_hash, mix_hash) := from_option (EthashModel.hash c seal_hash nonce) in
    if negb (is_less_or_equal final_hash boundary256) then Done (Some (AboveTarget block_num))
    else if negb (bytes_eqb mix_hash (hd_mix_hash h)) then Done (Some (WrongMixHash block_num))
    else Done None.
  (** cmd/check_pow.cpp:105-157; [None]: still running when the fuel is used up. *)
  Fixpoint pow_loop (fuel : nat) (d : database) (c : epoch_context) (block_num block_to : N) : option (out (option pow_report)) :=
    if block_num <=? block_to then
      match fuel with
      | O => None
      | S fuel =>
        match (do c := epoch_for c block_num in do h := canonical_header d block_num in do r := check_seal c h block_num in Done (c, r)) with
        | Done (c, None) => pow_loop fuel d c ((block_num + 1) mod 2 ^ 32) block_to
        | Done (_, Some r) => Some (Done (Some r))
        | Throws => Some Throws
        | Undefined => Some Undefined
        end
      end
    else Some (Done None).
  Definition kSendersKey : bytes := str "Senders"%string.
  (** cmd/check_pow.cpp:74, 95-159, for an Ethash chain; [block_from] and [block_to] are the options, of 32 bits. *)
  Definition check_pow (fuel : nat) (d : database) (block_from block_to : N) : option (out (option pow_report)) :=
    match get_stage_progress d kSendersKey with
    | Done progress =>
      let block_from := if block_from =? 0 then 1 else block_from in
      let block_to := N.min block_to (progress mod 2 ^ 32) in
      match (do p := from_option (create_epoch_context true (block_from / epoch_length)) in from_option p) with
      | Done c => pow_loop fuel d c block_from block_to
      | Throws => Some Throws
      | Undefined => Some Undefined
      end
    | Throws => Some Throws
    | Undefined => Some Undefined
    end.
  (** cmd/check_pow.cpp:80, 159-167: the status with which the process ends, when it does. *)
  Definition check_pow_status (r : out (option pow_report)) : option N := match r with Undefined => None | _ => Some 0 end.
End CheckPow.
