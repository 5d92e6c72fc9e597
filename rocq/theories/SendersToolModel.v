(** Model of cmd/check_senders.cpp: the command with a farm of its own. What reads the chain, the workers and the collecting of results are as in
    recovery_farm.cpp and recovery_worker.cpp, and are those of FarmModel; what is different is written out here. Left out: as in
    FarmModel, and signals, the command line and opening the database. *)
From Verif Require Import Base BlockModel ChainModel DbTable DbModel EtlModel HashStateModel FarmModel.
Open Scope list_scope.
Open Scope N_scope.

(** cmd/check_senders.cpp:424-463. After erase, to_next is at the record that follows. *)
Definition tool_unwind (d : database) (new_height : N) : out database :=
  let t := match d kSenders with
           | [] => []
           | t =>
             if new_height <=? 1 then []
             else
               let key := be_fixed 8 ((new_height + 1) mod 2 ^ 64) ++ repeat 0 32 in
               firstn (List.length t - List.length (lower_bound t key)) t
           end in
  set_stage_progress (set_table d kSenders t) kSendersKey new_height.

Section Tool.
  Variable keccak : bytes -> bytes.
  Variable recover : bytes -> bytes -> bool -> option bytes.
  Variable pick : list (entry * nat) -> nat.
  Variable max_batch_size : N.
  Variable max_workers : nat.
  Variable c : chain_config.

  (** cmd/check_senders.cpp:268-315, 705-755: from the heights on; [None]: it returns a status that is not 0 (NoDataToProcess, InvalidRange,
      HeaderNotFound, BadHeaderSequence, BlockNotFound). *)
  Definition tool_range (d : database) (height_from height_to : N) : out (option (list bytes * (list (list package) * ending))) :=
    do bodies := get_stage_progress d kBlockBodiesKey in
    if (bodies <? height_to) && (bodies <? height_from) then Done None
    else
      let height_to := N.min height_to bodies in
      if height_to <? height_from then Done None
      else
        do hs := fill_canonical_headers d height_from height_to in
        match hs with
        | None => Done None
        | Some hs =>
          if negb (N.of_nat (List.length hs) =? height_to - height_from + 1) then Done None
          else match hs with
               | [] => Undefined
               | h :: _ =>
                 match find (d kBlockBodies) (block_key_hash height_from h) with
                 | [] => Done None
                 | data => Done (Some (hs, read_bodies keccak max_batch_size c d data hs height_from []))
                 end
               end
        end.
  (** cmd/check_senders.cpp:251-266: with --force, what is already there is unwound first. The database is that of the transaction. *)
  Definition tool_prepare (d : database) (height_from height_to : N) (force : bool) : out (database * option (list bytes * (list (list package) * ending))) :=
    do senders := get_stage_progress d kSendersKey in
    let height_from := if (senders + 1) mod 2 ^ 64 <? height_from then (senders + 1) mod 2 ^ 64 else height_from in
    do (d, height_from) :=
      if height_from <=? senders then
        if force then do d := tool_unwind d (if height_from =? 0 then height_from else height_from - 1) in Done (d, height_from)
        else Done (d, (senders + 1) mod 2 ^ 64)
      else Done (d, height_from) in
    do r := tool_range d height_from height_to in
    Done (d, r).

  Variable ends : ending.
  (** cmd/check_senders.cpp:318-384, 485-501, 506-564, 621-679, 760-772. Here ret is the result of bufferize_workers_results (659): the loop goes on when it
      succeeded. *)
  Inductive tool_step : farm -> farm -> Prop :=
  | t_main f f' : (forall b todo, f_main f <> M_buffer b todo) -> main_step max_workers ends f f' -> tool_step f f'
  | t_round f f' b todo : f_main f = M_buffer b todo -> round f f' None -> tool_step f f'
  | t_goes_on f f' b todo : f_main f = M_buffer b todo -> round f f' (Some true) -> tool_step f (at_main f' (M_scan b todo))
  | t_fails f f' b todo : f_main f = M_buffer b todo -> round f f' (Some false) -> tool_step f (at_main f' M_throw).
  Inductive tool_run : farm -> farm -> Prop :=
  | trun_nil f : tool_run f f
  | trun_main f f1 f2 : tool_run f f1 -> tool_step f1 f2 -> tool_run f f2
  | trun_worker f f1 f2 i : tool_run f f1 -> worker_step keccak recover (max_batch_size * 20) i f1 f2 -> tool_run f f2.
End Tool.

Section Command.
  Variable keccak : bytes -> bytes.
  Variable recover : bytes -> bytes -> bool -> option bytes.
  Variable pick : list (entry * nat) -> nat.
  Variable max_batch_size : N.
  Variable max_workers : nat.
  Variable c : chain_config.
  Notation prepare := (tool_prepare keccak max_batch_size c).
  Notation run e := (tool_run keccak recover max_batch_size max_workers e).

  (** cmd/check_senders.cpp:242-418, 860-890: `check_senders recover` ends; whether its status is 0, and what it has committed. *)
  Inductive recovers (d : database) (height_from height_to : N) (force dry : bool) : bool -> option database -> Prop :=
  | rec_refused d1 : prepare d height_from height_to force = Done (d1, None) -> recovers d height_from height_to force dry false None
  | rec_throws : prepare d height_from height_to force = Throws -> recovers d height_from height_to force dry false None
  | rec_fails d1 hs bs e f : prepare d height_from height_to force = Done (d1, Some (hs, (bs, e))) -> run e (initial hs bs) f -> f_main f = M_bad_sequence \/ f_main f = M_throw ->
      recovers d height_from height_to force dry false None
  | rec_not_loaded d1 hs bs e f : prepare d height_from height_to force = Done (d1, Some (hs, (bs, e))) -> run e (initial hs bs) f -> f_main f = M_end -> conclude pick d1 f = Throws ->
      recovers d height_from height_to force dry false None
  | rec_ends d1 hs bs e f r d' : prepare d height_from height_to force = Done (d1, Some (hs, (bs, e))) -> run e (initial hs bs) f -> f_main f = M_end -> conclude pick d1 f = Done (r, d') ->
      recovers d height_from height_to force dry true (if dry then None else Some d').
  (** A worker goes on with a batch that is not there any more. *)
  Definition runs_wild (d : database) (height_from height_to : N) (force : bool) : Prop :=
    exists d1 hs bs e f w, prepare d height_from height_to force = Done (d1, Some (hs, (bs, e))) /\ run e (initial hs bs) f /\ In w (f_workers f) /\ w_pc w = W_undefined.
  Definition waits_forever (d : database) (height_from height_to : N) (force : bool) : Prop :=
    exists d1 hs bs e f, prepare d height_from height_to force = Done (d1, Some (hs, (bs, e))) /\ run e (initial hs bs) f /\ f_main f = M_wait /\ forall f', run e f f' -> f' = f.
  (** cmd/check_senders.cpp:874-890: `check_senders unwind` *)
  Definition unwinds (d : database) (height : N) (dry : bool) : out (bool * option database) :=
    match tool_unwind d height with
    | Done d' => Done (true, if dry then None else Some d')
    | Throws => Done (false, None)
    | Undefined => Undefined
    end.
End Command.
