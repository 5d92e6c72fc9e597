(** Specification for the database tool and the walks over a table. *)
From stdpp Require Import gmap.
From Verif Require Import Base BaseFacts DbTable DbModel DbToolModel.

(** [func] on one record after the other, until it says stop; the number of calls that said to go on. *)
Fixpoint walk {S} (func : S -> entry -> bool * S) (l : table) (s : S) : N * S :=
  match l with
  | [] => (0, s)
  | e :: rest => match func s e with (true, s) => let '(n, s) := walk func rest s in (n + 1, s) | (false, s) => (0, s) end
  end.
Fixpoint sum (l : list N) : N := match l with [] => 0 | x :: r => x + sum r end.
(** The pages a record of the free table stands for. *)
Definition pages_of (e : entry) : N := le_to_N (firstn 4 (snd e)).

(** A table after clear. *)
Definition cleared (drop : bool) (t : tbl) : option tbl := if drop then None else Some (mkTbl (t_flags t) []).
(** Words that answer the question. *)
Definition says_yes (w : bytes) : Prop := w = [121] \/ w = [89].
Definition says_no (w : bytes) : Prop := w = [110] \/ w = [78].
(** Words that do not: neither of these, nor the two one after the other. *)
Definition no_answer (w : bytes) : Prop := w <> [] /\ ~ says_yes w /\ ~ says_no w /\ forall y n, says_yes y -> says_no n -> w <> y ++ n.

(** The order of a table. *)
Definition in_order (t : tbl) : Prop := if dupsort t then dup_ordered (t_rows t) else ordered (t_rows t).
Definition size_of (e : entry) : N := blen (fst e) + blen (snd e).
(** Sizes as the tool can count them, and no empty keys. *)
Definition countable_rows (o : copy_options) (t : tbl) : Prop :=
  c_commitsize o < 2 ^ 63 /\ Forall (fun e => fst e <> [] /\ size_of e < 2 ^ 63) (t_rows t).
(** The user wants this table copied. *)
Definition wanted (o : copy_options) (n : bytes) (t : tbl) : Prop :=
  (c_tables o = [] \/ In n (c_tables o)) /\ ~ In n (c_xtables o) /\ (t_rows t = [] -> c_noempty o = false).
Definition prefix_of {A} (p l : list A) : Prop := exists q, l = p ++ q.
