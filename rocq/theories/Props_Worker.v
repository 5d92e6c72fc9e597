(** C56: what the thread that owns a Worker can rely on, for every interleaving with the thread it started. *)
From Verif Require Import Base WorkerModel WorkerSpec WorkerLemmas.

(** A worker that is stopped has no thread running; the same holds after the destructor. *)
Theorem C56_stopped_means K s : reachable K s -> own s <> O_terminate -> st s = kStopped -> th s = T_none \/ th s = T_done.
Proof. exact (stopped_means K s). Qed.
Print Assumptions C56_stopped_means.
Theorem C56_destroyed_means K s : reachable K s -> own s = O_destroyed -> th s = T_none \/ th s = T_done.
Proof. exact (destroyed_gone K s). Qed.
Print Assumptions C56_destroyed_means.
(** Whenever start() creates a thread, no earlier one is running. *)
Theorem C56_one_thread K s w : reachable K s -> own s = O_spawn w -> th s = T_none \/ th s = T_done.
Proof. exact (one_thread K s w). Qed.
Print Assumptions C56_one_thread.

(** A kick given while the thread is in work() is not lost: it stays until wait_for_kick takes it, or the work ends. *)
Theorem C56_kick_kept_partial K s ws s' : reachable K s -> working (th s) -> kicked s = true -> run K s ws s' ->
  (kicked s' = true /\ working (th s')) \/ passes K s ws s' (fun x => th x = T_test) \/ passes K s ws s' (fun x => th x = T_end).
Proof. exact (kept K s ws s'). Qed.
Print Assumptions C56_kick_kept_partial.
(** A kicked thread that waits is answered within three of its own steps, whatever the owner does in between. *)
Theorem C56_kick_wakes_partial K s ws s' : reachable K s -> waiting (th s) -> kicked s = true -> run K s ws s' -> (3 <= thread_steps ws)%nat -> passes K s ws s' (fun x => exists b, answered (th x) b).
Proof. exact (woken K s ws s'). Qed.
Print Assumptions C56_kick_wakes_partial.
Example kick_case K : exists s, reachable K s /\ waiting (th s) /\ kicked s = true /\ own s = O_idle.
Proof. exact (kept_case K). Qed.
(** stop(true) on a worker whose thread has reached work(): within 2K+5 steps of the thread it is done and join() can return. *)
Theorem C56_stop_partial K s s1 ws s' : reachable K s -> own s = O_stop_kick true -> working (th s) \/ th s = T_end -> owner_step s s1 -> run K s1 ws s' -> (2 * K + 5 <= thread_steps ws)%nat ->
  passes K s1 ws s' (fun x => th x = T_done /\ own x = O_join /\ hd_ x = H_joinable).
Proof. exact (stopping K s s1 ws s'). Qed.
Print Assumptions C56_stop_partial.
Example stop_case K : exists s s1, reachable K s /\ own s = O_stop_kick true /\ working (th s) /\ owner_step s s1.
Proof. exact (WorkerLemmas.stop_case K). Qed.

(** After start(true) has returned, a kick can be lost: the thread clears the flag after it has published kStarted. The owner made the call,
    and the thread waits until somebody kicks again. *)
Theorem C56_kick_refuted K : exists s0 s1 ws s2, reachable K s0 /\ st s0 = kStarted /\ own s0 = O_kick /\ owner_step s0 s1 /\ kicked s1 = true /\ own s1 = O_idle /\ run K s1 ws s2 /\ left_alone K s2 (fun x => waiting (th x)).
Proof. exact (lost_kick K). Qed.
Print Assumptions C56_kick_refuted.
(** So can the kick of stop(true), called after start(true) has returned: it never returns, on any continuation. *)
Theorem C56_stop_refuted K : exists s0 ws s1, reachable K s0 /\ st s0 = kStarted /\ own s0 = O_stop true /\ run K s0 ws s1 /\ forever K s1 (fun x => own x = O_join /\ waiting (th x)).
Proof. exact (lost_stop K). Qed.
Print Assumptions C56_stop_refuted.
(** stop(true) right after start(false) does not stop the thread, and then waits for it. *)
Theorem C56_stop_starting_refuted K : exists s0 ws s1, reachable K s0 /\ st s0 = kStarting /\ own s0 = O_stop true /\ run K s0 ws s1 /\ forever K s1 (fun x => own x = O_join /\ waiting (th x)).
Proof. exact (stop_ignored K). Qed.
Print Assumptions C56_stop_starting_refuted.
(** stop(true) on a worker that was never started joins through a null pointer. *)
Theorem C56_stop_unstarted_refuted K : run K initial [Owner; Owner; Owner] (mkSys kStopped false T_none H_null O_undefined).
Proof. exact (stop_unstarted K). Qed.
Print Assumptions C56_stop_unstarted_refuted.
(** start(true) never returns when the work ends before the owner looks at the state. *)
Theorem C56_start_refuted K : exists s, reachable K s /\ own s = O_poll /\ forever K s (fun x => own x = O_poll).
Proof. exact (start_spins K). Qed.
Print Assumptions C56_start_refuted.
(** The destructor kicks nobody: on every started worker that waits and has no kick pending, it never returns. *)
Theorem C56_destroy_refuted K s : reachable K s -> own s = O_destroy -> st s = kStarted -> waiting (th s) -> kicked s = false -> forever K s (fun x => own x <> O_destroyed).
Proof. exact (destroy_hangs_reachable K s). Qed.
Print Assumptions C56_destroy_refuted.
Example destroy_case K : exists s, reachable K s /\ own s = O_destroy /\ st s = kStarted /\ waiting (th s) /\ kicked s = false /\ hd_ s = H_joinable.
Proof. exact (WorkerLemmas.destroy_case K). Qed.
(** On every worker whose thread is over and was not joined, it ends the program. *)
Theorem C56_unjoined_refuted s s1 : own s = O_destroy -> st s = kStopped -> hd_ s = H_joinable -> owner_step s s1 -> own s1 = O_terminate.
Proof. exact (unjoined_terminates s s1). Qed.
Print Assumptions C56_unjoined_refuted.
(** That is so after start(true), stop(false) and the destructor. *)
Example unjoined_case K : exists ws s, run K initial ([Owner; Owner; Owner; Thread; Owner; Thread; Thread; Owner; Owner; Owner] ++ ws) s /\ own s = O_destroy /\ st s = kStopped /\ hd_ s = H_joinable.
Proof. exact (WorkerLemmas.unjoined_case K). Qed.
