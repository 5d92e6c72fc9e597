(** Model of db/silkworm/stagedsync/recovery/recovery_farm.cpp and recovery_worker.{hpp,cpp}: recovering the senders of transactions.

    The reading of bodies is a function; the farm and its workers are a transition system. A step is one scan of the workers' statuses
    or one access to a status, to the queue of completed batches or to the kick flag; the scans are single steps since a status only
    changes from Working to a final one by a worker, and only the farm sets Idle and Working. Left out: a stop requested from outside (and so the
    status Aborted), failures to create a worker, the wrapping of batch ids at 2^32, logging. ECDSA recovery and keccak are
    parameters; the chain config is given (read_chain_config, lines 33-36). *)
From Coq Require Import Strings.String.
From Verif Require Import Base RlpModel EcdsaModel TxModel BlockModel ChainModel DbTable DbModel EtlModel HashStateModel.
Open Scope list_scope.
Open Scope N_scope.

(** recovery_worker.hpp:55-60 *)
Record package := mkPackage { p_block : N; p_hash : bytes; p_odd : bool; p_signature : bytes }.
Definition kSendersKey : bytes := str "Senders"%string.
Definition kBlockBodiesKey : bytes := str "Bodies"%string.

Section Recovery.
  Variable keccak : bytes -> bytes.
  Variable recover : bytes -> bytes -> bool -> option bytes.   (* crypto/ecdsa.cpp:65-86 *)

  (** transaction.cpp:371-388 *)
  Definition recover_sender (t : transaction) : option bytes :=
    match recover (keccak (encode_tx_gen t true false)) (be_fixed 32 (tx_r t) ++ be_fixed 32 (tx_s t)) (tx_odd_y_parity t) with
    | Some key => Some (skipn 12 (keccak (tl key)))
    | None => None
    end.

  (** recovery_farm.cpp:287-316: the packages pushed; [None] when it throws. *)
  Definition package_of (n : N) (t : transaction) : package :=
    mkPackage n (keccak (encode_tx_gen t true false)) (tx_odd_y_parity t) (be_fixed 32 (tx_r t) ++ be_fixed 32 (tx_s t)).
  Definition passes_checks (c : chain_config) (n : N) (t : transaction) : bool :=
    is_valid_signature (tx_r t) (tx_s t) (EVMC_HOMESTEAD <=? revision c n)
    && match tx_chain_id t with Some id => (EVMC_SPURIOUS_DRAGON <=? revision c n) && (id =? cfg_chain_id c) | None => true end.
  Definition fill_batch (c : chain_config) (n : N) (txs : list transaction) : option (list package) :=
    if forallb (passes_checks c n) txs then Some (map (package_of n) txs) else None.

  (** recovery_farm.cpp:411-427: the hashes pushed and reached_block_num; inner [None]: kStageBadChainSequence. *)
  Fixpoint canonical_headers (data : table) (expected reached : N) : out (option (list bytes * N)) :=
    match data with
    | [] => Done (Some ([], reached))
    | (k, v) :: r =>
      if (List.length k <? 8)%nat then Undefined
      else
        let number := be_to_N (firstn 8 k) in
        if negb (number =? expected) then Done None
        else if negb (Nat.eqb (List.length v) 32) then Throws
        else
          do h := canonical_headers r ((expected + 1) mod 2 ^ 64) number in
          Done (match h with Some (l, reached) => Some (v :: l, reached) | None => None end)
    end.
  (** recovery_farm.cpp:394-435 *)
  Definition fill_canonical_headers (d : database) (height_from height_to : N) : out (option (list bytes)) :=
    match find (d kCanonicalHashes) (block_key height_from) with
    | [] => Done None
    | data =>
      do h := canonical_headers data height_from 0 in
      Done (match h with Some (l, reached) => if reached =? height_to then Some l else None | None => None end)
    end.

  (** How the reading of bodies ends. *)
  Inductive ending := E_finish | E_throws | E_bad_sequence | E_undefined.
  (** recovery_farm.cpp:92-143: the batches handed to dispatch_batch, and the end. [batch] is what is in batch_;
      a batch that is empty is not dispatched (323). *)
  Definition dispatched (batch : list package) : list (list package) := match batch with [] => [] | _ => [batch] end.
  Fixpoint read_bodies (max_batch_size : N) (c : chain_config) (d : database) (block_data : table) (headers : list bytes) (expected : N) (batch : list package)
    : list (list package) * ending :=
    match block_data, headers with
    | [], _ => (dispatched batch, E_finish)
    | _, [] => ([], E_undefined)
    | (k, v) :: r, h :: hs =>
      if (List.length k <? 40)%nat then ([], E_undefined)
      else
        let number := be_to_N (firstn 8 k) in
        if number <? expected then read_bodies max_batch_size c d r headers expected batch
        else if expected <? number then ([], E_bad_sequence)
        else if negb (bytes_eqb (firstn 32 (skipn 8 k)) h) then read_bodies max_batch_size c d r headers expected batch
        else
          match (do (b, _) := decode_stored v in read_transactions d (sb_base b) (sb_count b)) with
          | Undefined => ([], E_undefined)
          | Throws => ([], E_throws)
          | Done txs =>
            let full := negb (Nat.eqb (List.length txs) 0) && (max_batch_size <? N.of_nat (List.length batch) + N.of_nat (List.length txs)) in
            let out := if full then dispatched batch else [] in
            match fill_batch c number txs with
            | None => (out, E_throws)
            | Some ps =>
              let batch := (if full then [] else batch) ++ ps in
              match hs with
              | [] => (out ++ dispatched batch, E_finish)
              | _ =>
                let '(bs, e) := read_bodies max_batch_size c d r hs (expected + 1) batch in
                (out ++ bs, e)
              end
            end
          end
    end.

  (** recovery_farm.cpp:38-90: what recover returns before it reads any body, or the headers, the batches and the end. *)
  Inductive stage_result := kStageSuccess | kStageInvalidRange | kStageBadChainSequence.
  Definition prepare (max_batch_size : N) (c : chain_config) (d : database) (height_from height_to : N)
    : out (stage_result + list bytes * (list (list package) * ending)) :=
    do senders := get_stage_progress d kSendersKey in
    let height_from := if (senders + 1) mod 2 ^ 64 <? height_from then (senders + 1) mod 2 ^ 64 else height_from in
    let height_from := if height_from <=? senders then (senders + 1) mod 2 ^ 64 else height_from in
    do bodies := get_stage_progress d kBlockBodiesKey in
    if (bodies <? height_to) && (bodies <? height_from) then Done (inl kStageSuccess)
    else
      let height_to := N.min height_to bodies in
      if height_to <? height_from then Done (inl kStageInvalidRange)
      else
        do hs := fill_canonical_headers d height_from height_to in
        match hs with
        | None => Done (inl kStageBadChainSequence)
        | Some hs =>
          if negb (N.of_nat (List.length hs) =? height_to - height_from + 1) then Done (inl kStageBadChainSequence)
          else match hs with
               | [] => Undefined
               | h :: _ =>
                 match find (d kBlockBodies) (block_key_hash height_from h) with
                 | [] => Done (inl kStageBadChainSequence)
                 | data => Done (inr (hs, read_bodies max_batch_size c d data hs height_from []))
                 end
               end
        end.

  (** recovery_worker.cpp:51-96: the results of a batch: per block, the addresses one after the other. data_ has [size] bytes; what
      results_ points into is not written before the results are pulled, so the bytes are given. *)
  Inductive work_result := Ready (results : list (N * bytes)) | Failed | Overflow.
  Definition address_of (p : package) : option bytes :=
    match recover (p_hash p) (p_signature p) (p_odd p) with
    | Some (x :: key) => if x =? 4 then Some (skipn 12 (keccak key)) else None
    | _ => None
    end.
  Fixpoint work_loop (size : N) (batch : list package) (block_num offset : N) (block : bytes) (results : list (N * bytes)) : work_result :=
    match batch with
    | [] => Ready (results ++ match block with [] => [] | _ => [(block_num, block)] end)
    | p :: r =>
      let same := block_num =? p_block p in
      let results := if same then results else results ++ [(block_num, block)] in
      let offset := if same then offset else offset + blen block in
      let block := if same then block else [] in
      match address_of p with
      | Some a => if size <? offset + blen block + 20 then Overflow else work_loop size r (p_block p) offset (block ++ a) results
      | None => Failed
      end
    end.
  Definition work (size : N) (batch : list package) : work_result :=
    match batch with [] => Overflow | p :: _ => work_loop size batch (p_block p) 0 [] [] end.

  (** ** The farm and its workers *)
  (** recovery_worker.hpp:62-68 *)
  Inductive status := Idle | Working | ResultsReady | Error.
  (** Where the thread of a worker is: before kicked_.store(false) (worker.cpp:37), in wait_for_kick, before the handler is let in
      (recovery_farm.cpp:440), before batch_.reset() (recovery_worker.cpp:100), or beyond a null pointer or the end of data_. *)
  Inductive wpc := W_clear | W_wait | W_signal | W_reset | W_undefined.
  Record worker := mkWorker { w_status : status; w_kicked : bool; w_batch : option (list package); w_id : nat; w_results : list (N * bytes); w_pc : wpc }.
  Definition new_worker : worker := mkWorker Idle false None 0 [] W_clear.
  (** Where the farm is: before dispatch_batch for the next of the batches, in its loop, in bufferize_workers_results called from there,
      in wait_workers_completion, in the last call of bufferize_workers_results, after it; or it has thrown, returned early, or is undefined. *)
  Inductive mpc :=
  | M_next (todo : list (list package))
  | M_scan (b : list package) (todo : list (list package))
  | M_buffer (b : list package) (todo : list (list package))
  | M_wait | M_last | M_end | M_throw | M_bad_sequence | M_undefined.
  Record farm := mkFarm {
    f_workers : list worker;
    f_queue : list (nat * nat);        (* batches_completed *)
    f_completed : nat;                 (* completed_batch_id *)
    f_stop : bool;                     (* should_stop_ *)
    f_next : nat;                      (* batch_id_ *)
    f_headers : list bytes;            (* from headers_it_2_ on *)
    f_collected : list entry;
    f_main : mpc
  }.
  Definition initial (headers : list bytes) (batches : list (list package)) : farm := mkFarm [] [] 0 false 0 headers [] (M_next batches).
  Definition at_main (f : farm) (m : mpc) : farm := mkFarm (f_workers f) (f_queue f) (f_completed f) (f_stop f) (f_next f) (f_headers f) (f_collected f) m.
  Definition with_worker (f : farm) (i : nat) (w : worker) : farm :=
    mkFarm (set_nth (f_workers f) i w) (f_queue f) (f_completed f) (f_stop f) (f_next f) (f_headers f) (f_collected f) (f_main f).
  (** The first worker with a status, as found by std::find_if. *)
  Definition first_with (P : status -> Prop) (ws : list worker) (i : nat) : Prop :=
    exists w, nth_error ws i = Some w /\ P (w_status w) /\ forall j v, (j < i)%nat -> nth_error ws j = Some v -> ~ P (w_status v).
  Definition none_with (P : status -> Prop) (ws : list worker) : Prop := forall w, In w ws -> ~ P (w_status w).
  Definition finished (s : status) : Prop := s = ResultsReady \/ s = Error.
  (** recovery_farm.cpp:260-269: an entry per result, each with the header that follows; [None]: beyond the last one. *)
  Fixpoint bufferize (headers : list bytes) (results : list (N * bytes)) {struct results} : option (list entry * list bytes) :=
    match results with
    | [] => Some ([], headers)
    | (n, a) :: r => match headers with [] => None | h :: hs => match bufferize hs r with Some (es, hs) => Some ((block_key_hash n h, a) :: es, hs) | None => None end end
    end.

  Section Steps.
    Variable size : N.             (* of data_: max_batch_size * 20 *)
    Variable max_workers : nat.
    Variable ends : ending.
    (** One round of the loop in bufferize_workers_results (230-278): the farm afterwards, and its answer if the loop is over. *)
    Inductive round : farm -> farm -> option bool -> Prop :=
    | round_empty f : f_queue f = [] -> round f f (Some true)
    | round_error f i n q w : f_queue f = (i, n) :: q -> nth_error (f_workers f) i = Some w -> w_status w = Error ->
        round f (mkFarm (f_workers f) q (f_completed f) true (f_next f) (f_headers f) (f_collected f) (f_main f)) (Some false)
    | round_pull f i n q w es hs : f_queue f = (i, n) :: q -> nth_error (f_workers f) i = Some w -> w_status w = ResultsReady -> bufferize (f_headers f) (w_results w) = Some (es, hs) ->
        round f (mkFarm (set_nth (f_workers f) i (mkWorker Idle (w_kicked w) (w_batch w) (w_id w) [] (w_pc w))) q (f_completed f) (f_stop f) (f_next f) hs (f_collected f ++ es) (f_main f))
          (if f_stop f then Some true else None)
    | round_beyond f i n q w : f_queue f = (i, n) :: q -> nth_error (f_workers f) i = Some w -> w_status w = ResultsReady -> bufferize (f_headers f) (w_results w) = None ->
        round f (at_main f M_undefined) None
    | round_other f i n q w : f_queue f = (i, n) :: q -> nth_error (f_workers f) i = Some w -> w_status w <> Error -> w_status w <> ResultsReady ->
        round f (mkFarm (f_workers f) q (f_completed f) (f_stop f) (f_next f) (f_headers f) (f_collected f) (f_main f)) (if f_stop f then Some true else None).

    (** recovery_farm.cpp:92-163, 207-223, 318-376 *)
    Inductive main_step : farm -> farm -> Prop :=
    | m_enter f b todo : f_main f = M_next (b :: todo) -> f_stop f = false -> main_step f (at_main f (M_scan b todo))
    | m_stopped f b todo : f_main f = M_next (b :: todo) -> f_stop f = true -> main_step f (at_main f M_throw)
    | m_read f : f_main f = M_next [] -> main_step f (at_main f match ends with E_finish => M_wait | E_throws => M_throw | E_undefined => M_undefined | E_bad_sequence => if f_stop f then M_throw else M_bad_sequence end)
    | m_set_work f b todo i w : f_main f = M_scan b todo -> first_with (fun s => s = Idle) (f_workers f) i -> nth_error (f_workers f) i = Some w ->
        main_step f (mkFarm (set_nth (f_workers f) i (mkWorker Working true (Some b) (f_next f) (w_results w) (w_pc w))) (f_queue f) (f_completed f) (f_stop f) (S (f_next f)) (f_headers f) (f_collected f) (M_next todo))
    | m_finished f b todo i : f_main f = M_scan b todo -> none_with (fun s => s = Idle) (f_workers f) -> first_with finished (f_workers f) i -> main_step f (at_main f (M_buffer b todo))
    | m_new f b todo : f_main f = M_scan b todo -> none_with (fun s => s = Idle) (f_workers f) -> none_with finished (f_workers f) -> length (f_workers f) <> max_workers \/ f_workers f = [] ->
        main_step f (mkFarm (f_workers f ++ [new_worker]) (f_queue f) (f_completed f) (f_stop f) (f_next f) (f_headers f) (f_collected f) (f_main f))
    | m_sleep f b todo : f_main f = M_scan b todo -> none_with (fun s => s = Idle) (f_workers f) -> none_with finished (f_workers f) -> length (f_workers f) = max_workers -> main_step f f
    (* line 355: did_fail = bufferize_workers_results() *)
    | m_round f f' b todo : f_main f = M_buffer b todo -> round f f' None -> main_step f f'
    | m_did_fail f f' b todo : f_main f = M_buffer b todo -> round f f' (Some true) -> main_step f (at_main f' M_throw)
    | m_goes_on f f' b todo : f_main f = M_buffer b todo -> round f f' (Some false) -> main_step f (at_main f' (M_scan b todo))
    | m_waits f i : f_main f = M_wait -> first_with (fun s => s = Working) (f_workers f) i -> main_step f f
    | m_waited f : f_main f = M_wait -> none_with (fun s => s = Working) (f_workers f) -> main_step f (at_main f M_last)
    (* line 150: what bufferize_workers_results returns is not looked at *)
    | m_last f f' : f_main f = M_last -> round f f' None -> main_step f f'
    | m_end f f' r : f_main f = M_last -> round f f' (Some r) -> main_step f (at_main f' M_end).

    (** recovery_worker.cpp:51-101, recovery_farm.cpp:437-450 *)
    Inductive worker_step (i : nat) : farm -> farm -> Prop :=
    | w_clears f w : nth_error (f_workers f) i = Some w -> w_pc w = W_clear ->
        worker_step i f (with_worker f i (mkWorker (w_status w) false (w_batch w) (w_id w) (w_results w) W_wait))
    | w_null f w : nth_error (f_workers f) i = Some w -> w_pc w = W_wait -> w_kicked w = true -> w_batch w = None ->
        worker_step i f (with_worker f i (mkWorker (w_status w) false None (w_id w) [] W_undefined))
    | w_ready f w b rs : nth_error (f_workers f) i = Some w -> w_pc w = W_wait -> w_kicked w = true -> w_batch w = Some b -> work size b = Ready rs ->
        worker_step i f (with_worker f i (mkWorker ResultsReady false (Some b) (w_id w) rs W_signal))
    | w_error f w b rs : nth_error (f_workers f) i = Some w -> w_pc w = W_wait -> w_kicked w = true -> w_batch w = Some b -> work size b = Failed ->
        worker_step i f (with_worker f i (mkWorker Error false (Some b) (w_id w) rs W_signal))
    | w_overflow f w b : nth_error (f_workers f) i = Some w -> w_pc w = W_wait -> w_kicked w = true -> w_batch w = Some b -> work size b = Overflow ->
        worker_step i f (with_worker f i (mkWorker (w_status w) false (Some b) (w_id w) [] W_undefined))
    | w_pushes f w : nth_error (f_workers f) i = Some w -> w_pc w = W_signal -> f_completed f = w_id w ->
        worker_step i f (mkFarm (set_nth (f_workers f) i (mkWorker (w_status w) (w_kicked w) (w_batch w) (w_id w) (w_results w) W_reset)) (f_queue f ++ [(i, w_id w)]) (S (f_completed f)) (f_stop f) (f_next f) (f_headers f) (f_collected f) (f_main f))
    | w_resets f w : nth_error (f_workers f) i = Some w -> w_pc w = W_reset ->
        worker_step i f (with_worker f i (mkWorker (w_status w) (w_kicked w) None (w_id w) (w_results w) W_wait)).

    (** Interleavings. *)
    Inductive run : farm -> farm -> Prop :=
    | run_nil f : run f f
    | run_main f f1 f2 : run f f1 -> main_step f1 f2 -> run f f2
    | run_worker f f1 f2 i : run f f1 -> worker_step i f1 f2 -> run f f2.
  End Steps.

  Section Final.
    Variable pick : list (entry * nat) -> nat.    (* the heap of the collector: EtlModel *)
    (** recovery_farm.cpp:149-166: what recover returns at the end, and the database. *)
    Definition conclude (d : database) (f : farm) : out (stage_result * database) :=
      match f_collected f with
      | [] => Done (kStageSuccess, d)
      | es =>
        if f_stop f then Done (kStageSuccess, d)
        else
          do t := load_append pick (d kSenders) es in
          match rev t with
          | [] => Undefined
          | (k, _) :: _ =>
            if (List.length k <? 8)%nat then Undefined
            else do d := set_stage_progress (set_table d kSenders t) kSendersKey (be_to_N (firstn 8 k)) in Done (kStageSuccess, d)
          end
      end.

    (** recovery_farm.cpp:30-167: a call of recover(height_from, height_to), with some interleaving: it returns a result with the database as it
        then is in the transaction; or it throws. *)
    Variable max_batch_size : N.
    Variable max_workers : nat.
    Variable c : chain_config.
    Inductive returns (d : database) (height_from height_to : N) : stage_result -> database -> Prop :=
    | returns_early r : prepare max_batch_size c d height_from height_to = Done (inl r) -> returns d height_from height_to r d
    | returns_bad_sequence hs bs e f : prepare max_batch_size c d height_from height_to = Done (inr (hs, (bs, e))) -> run (max_batch_size * 20) max_workers e (initial hs bs) f -> f_main f = M_bad_sequence ->
        returns d height_from height_to kStageBadChainSequence d
    | returns_end hs bs e f r d' : prepare max_batch_size c d height_from height_to = Done (inr (hs, (bs, e))) -> run (max_batch_size * 20) max_workers e (initial hs bs) f -> f_main f = M_end ->
        conclude d f = Done (r, d') -> returns d height_from height_to r d'.
    Inductive throws (d : database) (height_from height_to : N) : Prop :=
    | throws_early : prepare max_batch_size c d height_from height_to = Throws -> throws d height_from height_to
    | throws_running hs bs e f : prepare max_batch_size c d height_from height_to = Done (inr (hs, (bs, e))) -> run (max_batch_size * 20) max_workers e (initial hs bs) f -> f_main f = M_throw -> throws d height_from height_to
    | throws_end hs bs e f : prepare max_batch_size c d height_from height_to = Done (inr (hs, (bs, e))) -> run (max_batch_size * 20) max_workers e (initial hs bs) f -> f_main f = M_end -> conclude d f = Throws -> throws d height_from height_to.
    (** It never comes back: from some point on no thread can change anything. *)
    Definition hangs (d : database) (height_from height_to : N) : Prop :=
      exists hs bs e f, prepare max_batch_size c d height_from height_to = Done (inr (hs, (bs, e))) /\ run (max_batch_size * 20) max_workers e (initial hs bs) f /\ f_main f = M_wait
        /\ forall f', run (max_batch_size * 20) max_workers e f f' -> f' = f.
  End Final.
End Recovery.

(** recovery_farm.cpp:169-198, without a stop requested; seek is MDBX_SET. *)
Definition unwind_senders (d : database) (new_height : N) : out database :=
  let t := match d kSenders with
           | [] => []
           | t =>
             if new_height <=? 1 then []
             else
               let key := be_fixed 8 ((new_height + 1) mod 2 ^ 64) ++ repeat 0 32 in
               match find t key with
               | [] => t
               | p => firstn (List.length t - List.length p) t
               end
           end in
  set_stage_progress (set_table d kSenders t) kSendersKey new_height.
