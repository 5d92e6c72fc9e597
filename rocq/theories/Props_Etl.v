(** C50: the collector. *)
From Coq Require Import Permutation Sorting.Sorted.
From Verif Require Import Base DbTable DbModel EtlModel EtlSpec EtlLemmas.

(** Whatever the buffer limit and the heap, all entries collected are handed over in order. *)
Theorem C50_load_partial : forall es, Forall fits es -> Forall (fun e => fst e <> [] \/ snd e <> []) es -> total_size es < 2 ^ 64 ->
  exists l, in_order l /\ Permutation l es /\ forall limit pick fuel, least_first pick -> (length es <= fuel)%nat ->
    exists c, load pick fuel (fold_left collect es (new_collector limit)) = Done (l, c).
Proof. exact load_all. Qed.
Print Assumptions C50_load_partial.
Example C50_load_case : Forall fits case_entries /\ Forall (fun e => fst e <> [] \/ snd e <> []) case_entries /\ total_size case_entries < 2 ^ 64.
Proof. exact case_ok. Qed.
Example C50_load_value : match load least_of 6 (fold_left collect case_entries (new_collector 4)) with Done (l, c) => l = [([], [7]); ([1], [4]); ([1], [9]); ([2; 1], []); ([3], [1]); ([3], [1])] /\ c_files c = [None; None; None] | _ => False end.
Proof. exact case_load. Qed.
Example C50_heap : least_first least_of.
Proof. exact least_of_first. Qed.

(** Without the condition that entries are not empty: an empty last entry is lost. *)
Theorem C50_refuted : exists es limit, Forall fits es /\ total_size es < 2 ^ 64 /\ match load least_of (length es) (fold_left collect es (new_collector limit)) with Done (l, _) => ~ Permutation l es | _ => False end.
Proof. exact lost. Qed.
Print Assumptions C50_refuted.

(** Loaded into a table: of several values for a key the greatest stays; other keys are untouched. *)
Theorem C50_table : forall es limit pick fuel l c t, Forall fits es -> Forall (fun e => fst e <> [] \/ snd e <> []) es -> total_size es < 2 ^ 64 -> least_first pick -> (length es <= fuel)%nat ->
  load pick fuel (fold_left collect es (new_collector limit)) = Done (l, c) -> ordered t ->
  ordered (put_all t l) /\ (forall k v, In (k, v) es -> (forall w, In (k, w) es -> lex_lt v w = false) -> lookup (put_all t l) k = Some v)
  /\ (forall k, (forall v, ~ In (k, v) es) -> lookup (put_all t l) k = lookup t k).
Proof. exact load_table. Qed.
Print Assumptions C50_table.

(** A second round delivers exactly what is collected in it, if the first stayed in memory ... *)
Theorem C50_reuse_partial : forall limit pick fuel es1 es2 l1 c1, least_first pick -> Forall fits (es1 ++ es2) -> Forall (fun e => fst e <> [] \/ snd e <> []) (es1 ++ es2) -> total_size (es1 ++ es2) < 2 ^ 64 -> (length (es1 ++ es2) <= fuel)%nat ->
  total_size es1 < limit -> limit <= 2 ^ 64 -> load pick fuel (fold_left collect es1 (new_collector limit)) = Done (l1, c1) ->
  exists l2 c2, load pick fuel (fold_left collect es2 c1) = Done (l2, c2) /\ in_order l2 /\ Permutation l2 es2.
Proof. exact reuse_memory. Qed.
Print Assumptions C50_reuse_partial.
(** ... and dereferences a null pointer if it did not. *)
Theorem C50_reuse_refuted : forall limit pick fuel es1 es2 l1 c1, least_first pick -> Forall fits (es1 ++ es2) -> Forall (fun e => fst e <> [] \/ snd e <> []) (es1 ++ es2) -> total_size (es1 ++ es2) < 2 ^ 64 -> (length (es1 ++ es2) <= fuel)%nat ->
  c_files (fold_left collect es1 (new_collector limit)) <> [] -> es2 <> [] -> load pick fuel (fold_left collect es1 (new_collector limit)) = Done (l1, c1) ->
  load pick fuel (fold_left collect es2 c1) = Undefined.
Proof. exact reuse_files. Qed.
Print Assumptions C50_reuse_refuted.
Example C50_reuse_case : match load least_of 2 (fold_left collect [([1], [2])] (new_collector 1)) with Done (_, c) => load least_of 2 (fold_left collect [([3], [4])] c) = Undefined | _ => False end.
Proof. exact case_reuse. Qed.
