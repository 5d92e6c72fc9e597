(** C94: log messages of many threads. *)
From Coq Require Import Strings.String.
From Verif Require Import Base DbModel LogModel LogSpec LogProofs LogLemmas.
Open Scope list_scope.
Open Scope N_scope.

(** C94: for every schedule of any number of threads, when they are through both streams have the lines of all messages of sufficient
    level, each in one piece, those of a thread in its order. *)
Theorem C94_lines_partial : forall verbosity thread_enabled thread_id programs, (forall p m, In p programs -> In m p -> known_level m) ->
  forall s, steps verbosity thread_enabled thread_id (start programs (mkSink [] None) (mkSink [] None)) s -> finished s ->
  exists order, s_out (first s) = concat (map (fun p => line (if thread_enabled then Some (thread_id (fst p)) else None) (snd p)) order) /\ s_out (second s) = s_out (first s)
    /\ forall i p, nth_error programs i = Some p -> logged_by i order = visible verbosity p.
Proof. exact log_end. Qed.
Print Assumptions C94_lines_partial.
(** At any moment before, the streams have whole lines and the begin of one more. *)
Theorem C94_prefix_partial : forall verbosity thread_enabled thread_id programs, (forall p m, In p programs -> In m p -> known_level m) ->
  forall s, steps verbosity thread_enabled thread_id (start programs (mkSink [] None) (mkSink [] None)) s ->
  exists order part, s_out (first s) = concat (map (fun p => line (if thread_enabled then Some (thread_id (fst p)) else None) (snd p)) order) ++ part /\ s_out (second s) = s_out (first s)
    /\ (forall i p, nth_error programs i = Some p -> exists r, visible verbosity p = logged_by i order ++ r)
    /\ (part = [] \/ exists i m rest, line (if thread_enabled then Some (thread_id i) else None) m = part ++ rest
          /\ forall p, nth_error programs i = Some p -> exists r, visible verbosity p = logged_by i order ++ m :: r).
Proof. exact log_prefix. Qed.
Print Assumptions C94_prefix_partial.
(** No schedule blocks, and every schedule ends, whatever the streams take. *)
Theorem C94_progress : forall verbosity thread_enabled thread_id programs a b s, (forall p m, In p programs -> In m p -> plain verbosity m) ->
  steps verbosity thread_enabled thread_id (start programs a b) s -> finished s \/ exists t, step verbosity thread_enabled thread_id s t.
Proof. exact progress. Qed.
Print Assumptions C94_progress.
Theorem C94_ends : forall verbosity thread_enabled thread_id, well_founded (fun t s => step verbosity thread_enabled thread_id s t).
Proof. exact steps_end. Qed.
Print Assumptions C94_ends.

(** The full property would not let the failure of one stream silence the other. When the second takes only n characters, the first gets
    at most n + 1, whatever is logged. *)
Theorem C94_failing_stream_refuted :
  (forall verbosity thread_enabled thread_id programs n s room, steps verbosity thread_enabled thread_id (start programs (mkSink [] room) (mkSink [] (Some n))) s -> (length (s_out (first s)) <= n + 1)%nat)
  /\ exists s, steps 2 false no_id (start log_programs (mkSink [] None) (mkSink [] (Some 3%nat))) s /\ finished s /\ s_out (first s) = str "ERRO"%string.
Proof. exact log_full_lemma. Qed.
Print Assumptions C94_failing_stream_refuted.
(** And it would have no condition on the operands: the mutex is held while they are evaluated, so that a message with an operand that
    logs a message to be seen is never finished. *)
Theorem C94_operand_refuted :
  (forall verbosity thread_enabled thread_id programs a b s, steps verbosity thread_enabled thread_id (start programs a b) s -> finished s ->
    forall p m, In p programs -> In m p -> verbosity <= m_level m -> plain verbosity m)
  /\ forall s, steps 2 false no_id (start [[msg_nested]] (mkSink [] None) (mkSink [] None)) s -> ~ finished s.
Proof. exact log_nested_lemma. Qed.
Print Assumptions C94_operand_refuted.

Example C94_case : exists s, steps 2 false no_id (start log_programs (mkSink [] None) (mkSink [] None)) s /\ finished s
  /\ s_out (first s) = str "ERROR[t2]  two"%string ++ [10] ++ str "INFO [t1]  one"%string ++ [10] /\ s_out (second s) = s_out (first s).
Proof. exact log_case. Qed.
Example C94_case_hypotheses : (forall p m, In p log_programs -> In m p -> known_level m) /\ forall p m, In p log_programs -> In m p -> plain 2 m.
Proof. exact log_programs_ok. Qed.
