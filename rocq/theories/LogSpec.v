(** What is expected of a log. *)
From Coq Require Import Strings.String.
From Verif Require Import Base DbModel LogModel.
Open Scope list_scope.
Open Scope N_scope.

(** The line of a message: level, time, thread, and the operands. *)
Definition level_name (l : N) : bytes :=
  str (match l with 0 => "TRACE" | 1 => "DEBUG" | 2 => "INFO " | 3 => "WARN " | 4 => "ERROR" | 5 => "CRIT " | _ => "NONE " end)%string.
Definition operand_text (o : operand) : bytes := match o with Text b => b | Logs _ => [] end.
Definition line (id : option bytes) (m : message) : bytes :=
  level_name (m_level m) ++ [91] ++ m_time m ++ [93; 32] ++ match id with Some b => b ++ [32] | None => [] end ++ [32] ++ concat (map operand_text (m_operands m)).
(** The messages of a program that are to be seen. *)
Definition visible (verbosity : N) (program : list message) : list message := filter (fun m => verbosity <=? m_level m) program.
(** The part of a sequence of messages, each with the number of its thread, that one thread logged. *)
Definition logged_by (i : nat) (order : list (nat * message)) : list message := map snd (filter (fun p => Nat.eqb (fst p) i) order).
Definition known_level (m : message) : Prop := m_level m <= 6.
(** No operand of a message logs anything to be seen. *)
Definition plain (verbosity : N) (m : message) : Prop := forall o l, In o (m_operands m) -> o = Logs l -> l < verbosity.
(** All threads are through. *)
Definition finished (s : state) : Prop := forall t, In t (threads s) -> t = Idle [].
Definition healthy (s : sink) : Prop := s_room s = None.
