(** Model of db/silkworm/common/worker.{hpp,cpp}: a transition system of the thread that owns a Worker and of the thread it starts.

    Each step is one access to state_, to kicked_ or to thread_; accesses are sequentially consistent, as std::atomic's are by default.
    The condition variable is not represented: wait_for has a timeout, so a waiting thread may wake up at any time, and notify_all
    adds no step. The work of a derived class is a loop around wait_for_kick whose body takes at most K steps and may end early,
    by an exception or by returning. One thread calls the methods. *)
From Verif Require Import Base.

(** worker.hpp:29 *)
Inductive wstate := kStopped | kStarting | kStarted | kStopping.
(** The thread started at worker.cpp:33-44. *)
Inductive tpc :=
| T_none                                    (* no thread *)
| T_begin                                   (* 35: before the exchange *)
| T_clear                                   (* 37: before kicked_.store(false) *)
| T_work (answer : option bool) (n : nat)   (* 38: in work(), after wait_for_kick answered; n steps to the next call *)
| T_check                                   (* 72: before the exchange *)
| T_sleep                                   (* 74: waiting *)
| T_test                                    (* 79: before should_stop *)
| T_end                                     (* 43: before the store *)
| T_done.
(** thread_: null, a thread that was not joined, one that was *)
Inductive handle := H_null | H_joinable | H_joined.
(** The owner: which call it is in, and where. *)
Inductive opc :=
| O_idle
| O_start (wait : bool) | O_spawn (wait : bool) | O_poll        (* 29, 33, 46-52 *)
| O_stop (wait : bool) | O_stop_kick (wait : bool) | O_join     (* 56, 57, 60 *)
| O_kick                                                        (* 64 *)
| O_destroy | O_destroy_store | O_destroy_join                  (* 21, 22, 23 *)
| O_destroyed
| O_terminate                                                   (* std::terminate: a joinable std::thread is destroyed *)
| O_system_error                                                (* join of a thread that was joined *)
| O_undefined.                                                  (* join through a null pointer *)
Record sys := mkSys { st : wstate; kicked : bool; th : tpc; hd_ : handle; own : opc }.
Definition initial : sys := mkSys kStopped false T_none H_null O_idle.

Section Steps.
  Variable K : nat.
  (** worker.cpp:33-44, 68-80 *)
  Inductive thread_step : sys -> sys -> Prop :=
  | begin_ok k h o : thread_step (mkSys kStarting k T_begin h o) (mkSys kStarted k T_clear h o)
  | begin_no s k h o : s <> kStarting -> thread_step (mkSys s k T_begin h o) (mkSys s k T_end h o)
  | clear s k n h o : (n <= K)%nat -> thread_step (mkSys s k T_clear h o) (mkSys s false (T_work None n) h o)
  | work_on s k a n h o : thread_step (mkSys s k (T_work a (S n)) h o) (mkSys s k (T_work a n) h o)
  | work_leaves s k a n h o : thread_step (mkSys s k (T_work a n) h o) (mkSys s k T_end h o)
  | work_waits s k a h o : a <> Some false -> thread_step (mkSys s k (T_work a 0) h o) (mkSys s k T_check h o)
  | check_yes s h o : thread_step (mkSys s true T_check h o) (mkSys s false T_test h o)
  | check_no s h o : thread_step (mkSys s false T_check h o) (mkSys s false T_sleep h o)
  | wakes s k h o : thread_step (mkSys s k T_sleep h o) (mkSys s k T_check h o)
  | stops k n h o : (n <= K)%nat -> thread_step (mkSys kStopping k T_test h o) (mkSys kStopping k (T_work (Some false) n) h o)
  | goes_on s k n h o : s <> kStopping -> (n <= K)%nat -> thread_step (mkSys s k T_test h o) (mkSys s k (T_work (Some true) n) h o)
  | ends s k h o : thread_step (mkSys s k T_end h o) (mkSys kStopped k T_done h o).

  (** The calls, and worker.cpp:20-66 *)
  Inductive owner_step : sys -> sys -> Prop :=
  | call_start s k t h w : owner_step (mkSys s k t h O_idle) (mkSys s k t h (O_start w))
  | call_stop s k t h w : owner_step (mkSys s k t h O_idle) (mkSys s k t h (O_stop w))
  | call_kick s k t h : owner_step (mkSys s k t h O_idle) (mkSys s k t h O_kick)
  | call_destroy s k t h : owner_step (mkSys s k t h O_idle) (mkSys s k t h O_destroy)
  (* start *)
  | start_ok k t h w : owner_step (mkSys kStopped k t h (O_start w)) (mkSys kStarting k t h (O_spawn w))
  | start_no s k t h w : s <> kStopped -> owner_step (mkSys s k t h (O_start w)) (mkSys s k t h O_idle)
  | spawn s k t h w : h <> H_joinable -> owner_step (mkSys s k t h (O_spawn w)) (mkSys s k T_begin H_joinable (if w then O_poll else O_idle))
  | spawn_over s k t w : owner_step (mkSys s k t H_joinable (O_spawn w)) (mkSys s k T_begin H_joinable O_terminate)
  | poll_yes k t h : owner_step (mkSys kStarted k t h O_poll) (mkSys kStarted k t h O_idle)
  | poll_no s k t h : s <> kStarted -> owner_step (mkSys s k t h O_poll) (mkSys s k t h O_poll)
  (* stop *)
  | stop_ok k t h w : owner_step (mkSys kStarted k t h (O_stop w)) (mkSys kStopping k t h (O_stop_kick w))
  | stop_no s k t h w : s <> kStarted -> owner_step (mkSys s k t h (O_stop w)) (mkSys s k t h (if w then O_join else O_idle))
  | stop_kicks s k t h w : owner_step (mkSys s k t h (O_stop_kick w)) (mkSys s true t h (if w then O_join else O_idle))
  | join_null s k t : owner_step (mkSys s k t H_null O_join) (mkSys s k t H_null O_undefined)
  | join_twice s k t : owner_step (mkSys s k t H_joined O_join) (mkSys s k t H_joined O_system_error)
  | join s k : owner_step (mkSys s k T_done H_joinable O_join) (mkSys s k T_done H_joined O_idle)
  (* kick *)
  | kicks s k t h : owner_step (mkSys s k t h O_kick) (mkSys s true t h O_idle)
  (* the destructor; afterwards unique_ptr destroys the std::thread *)
  | destroy_running s k t h : s <> kStopped -> owner_step (mkSys s k t h O_destroy) (mkSys s k t h O_destroy_store)
  | destroy_unjoined k t : owner_step (mkSys kStopped k t H_joinable O_destroy) (mkSys kStopped k t H_joinable O_terminate)
  | destroy_ok k t h : h <> H_joinable -> owner_step (mkSys kStopped k t h O_destroy) (mkSys kStopped k t h O_destroyed)
  | destroy_stops s k t h : owner_step (mkSys s k t h O_destroy_store) (mkSys kStopping k t h O_destroy_join)
  | destroy_null s k t : owner_step (mkSys s k t H_null O_destroy_join) (mkSys s k t H_null O_undefined)
  | destroy_twice s k t : owner_step (mkSys s k t H_joined O_destroy_join) (mkSys s k t H_joined O_terminate)
  | destroy_joins s k : owner_step (mkSys s k T_done H_joinable O_destroy_join) (mkSys s k T_done H_joined O_destroyed).

  (** Interleavings. *)
  Inductive who := Owner | Thread.
  Definition step (w : who) : sys -> sys -> Prop := match w with Owner => owner_step | Thread => thread_step end.
  Inductive run : sys -> list who -> sys -> Prop :=
  | run_nil s : run s [] s
  | run_cons s w s1 ws s2 : step w s s1 -> run s1 ws s2 -> run s (w :: ws) s2.
  Definition reachable (s : sys) : Prop := exists ws, run initial ws s.
End Steps.
Definition is_thread (w : who) : bool := match w with Thread => true | Owner => false end.
(** The number of steps the started thread takes. *)
Definition thread_steps (ws : list who) : nat := length (filter is_thread ws).
