(** Model of db/silkworm/common/log.{hpp,cpp} and tee.hpp: log messages of many threads on two streams.

    The threads and the mutex are a transition system; a step takes or releases the mutex, skips a message or hands one character to the
    streams. The verbosity and the flag for thread ids do not change while threads log; times are given with the message; flushing is left
    out, as are buffers below the streams. *)
From Coq Require Import Strings.String.
From Verif Require Import Base DbModel.
Open Scope list_scope.
Open Scope N_scope.

(** log.hpp:44: Trace, Debug, Info, Warn, Error, Critical, None are 0 to 6. An operand of << is a text, or an expression whose evaluation
    logs a message of the given level (and which prints nothing). *)
Inductive operand := Text (b : bytes) | Logs (level : N).
Record message := mkMsg { m_level : N; m_time : bytes; m_operands : list operand }.
(** log.cpp:28-30 *)
Definition kLogTags : list bytes := map str ["TRACE"; "DEBUG"; "INFO "; "WARN "; "ERROR"; "CRIT "; "NONE "]%string.

(** A stream: what was written, and how many characters it still takes ([None]: any number). *)
Record sink := mkSink { s_out : bytes; s_room : option nat }.
Definition sputc (s : sink) (c : N) : sink * bool :=
  match s_room s with
  | None => (mkSink (s_out s ++ [c]) None, true)
  | Some (S n) => (mkSink (s_out s ++ [c]) (Some n), true)
  | Some O => (s, false)
  end.

Section Logging.
  Variable verbosity : N.                 (* log_verbosity_ *)
  Variable thread_enabled : bool.         (* log_thread_enabled_ *)
  Variable thread_id : nat -> bytes.

  (** What a thread does with the mutex held: print a character, or lock the mutex again. *)
  Inductive item := Char (c : N) | Relock.
  (** log.cpp:36-43 and the " " of the macro (log.hpp:32) *)
  Definition header (i : nat) (m : message) : bytes :=
    nth (N.to_nat (m_level m)) kLogTags [] ++ str "["%string ++ m_time m ++ str "] "%string ++ (if thread_enabled then thread_id i ++ str " "%string else []).
  Definition operand_items (o : operand) : list item :=
    match o with Text b => map Char b | Logs level => if level <? verbosity then [] else [Relock] end.
  Definition items (i : nat) (m : message) : list item := map Char (header i m ++ str " "%string) ++ concat (map operand_items (m_operands m)).

  Inductive thread := Idle (todo : list message) | Writing (rest : list item) (todo : list message).
  Record state := mkState { holder : option nat; threads : list thread; first : sink; second : sink; bad : bool }.
  (** tee.hpp:44-52, and the ostream above it: it writes nothing once a write has failed. *)
  Definition put_char (s : state) (c : N) : state :=
    if bad s then s
    else
      let '(a, ok1) := sputc (first s) c in
      let '(b, ok2) := sputc (second s) c in
      mkState (holder s) (threads s) a b (negb (ok1 && ok2)).
  Fixpoint set_thread (l : list thread) (i : nat) (t : thread) : list thread :=
    match l, i with [], _ => [] | _ :: r, O => t :: r | x :: r, S i => x :: set_thread r i t end.
  Definition with_thread (s : state) (h : option nat) (i : nat) (t : thread) : state := mkState h (set_thread (threads s) i t) (first s) (second s) (bad s).

  (** log.hpp:29-32, 62-70 *)
  Inductive step : state -> state -> Prop :=
  | step_skip s i m todo : nth_error (threads s) i = Some (Idle (m :: todo)) -> m_level m < verbosity -> step s (with_thread s (holder s) i (Idle todo))
  | step_lock s i m todo : nth_error (threads s) i = Some (Idle (m :: todo)) -> verbosity <= m_level m -> holder s = None ->
      step s (with_thread s (Some i) i (Writing (items i m) todo))
  | step_char s i c r todo : nth_error (threads s) i = Some (Writing (Char c :: r) todo) -> step s (with_thread (put_char s c) (holder s) i (Writing r todo))
  | step_relock s i r todo : nth_error (threads s) i = Some (Writing (Relock :: r) todo) -> holder s = None -> step s (with_thread s (Some i) i (Writing r todo))
  | step_unlock s i todo : nth_error (threads s) i = Some (Writing [] todo) -> step s (with_thread s None i (Idle todo)).
  Inductive steps : state -> state -> Prop :=
  | steps_refl s : steps s s
  | steps_step s t u : steps s t -> step t u -> steps s u.
  Definition start (programs : list (list message)) (a b : sink) : state := mkState None (map Idle programs) a b false.
End Logging.
