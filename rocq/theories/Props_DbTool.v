(** C88, C89: the database tool and walks over a table. *)
From Coq Require Import Sorting.Sorted.
From stdpp Require Import gmap.
From Verif Require Import Base BaseFacts DbTable DbModel HashStateModel DbToolModel DbToolSpec DbToolProofs DbToolLemmas.

(** C88: clear with confirmation given on the command line empties (or drops) the tables named, and only those. *)
Theorem C88_clear_confirmed : forall e names drop input, exists e', do_clear e names drop true input = Some e'
  /\ forall m, (In m names -> e' m = match e m with Some t => cleared drop t | None => None end) /\ (~ In m names -> e' m = e m).
Proof. exact clear_yes. Qed.
Print Assumptions C88_clear_confirmed.

(** Whatever is answered, a table is as before, or it was named and is cleared. *)
Theorem C88_clear_only_named : forall names e drop yes input e', do_clear e names drop yes input = Some e' ->
  forall m, e' m = e m \/ (In m names /\ exists t, e m = Some t /\ e' m = cleared drop t).
Proof. exact clear_named. Qed.
Print Assumptions C88_clear_only_named.

(** When asked, the first answer that is one decides. *)
Theorem C88_clear_asked : forall e n t drop pre w rest, e n = Some t -> (t_rows t <> [] \/ drop = true) -> Forall no_answer pre ->
  (says_yes w -> do_clear e [n] drop false (pre ++ w :: rest) = Some (set_table e n (cleared drop t)))
  /\ (says_no w -> do_clear e [n] drop false (pre ++ w :: rest) = Some e).
Proof. exact clear_asked. Qed.
Print Assumptions C88_clear_asked.
Example C88_clear_nonvacuous : exists e', do_clear env_a [[65]; [66]] false false [[120]; [121]] = Some e' /\ e' [65] = Some (mkTbl 0 []).
Proof. exact clear_case. Qed.
Example C88_clear_no_nonvacuous : exists e', do_clear env_a [[65]; [66]] true false [[120]; [78]] = Some e' /\ e' [65] = Some table_a.
Proof. exact clear_no_case. Qed.

(** The full property would have a table cleared only after a yes; the prompt is "[y/N]". At the end of the input no answer counts
    as yes, for every table named. *)
Theorem C88_clear_unanswered_refuted : (forall e names drop, do_clear e names drop false [] = do_clear e names drop true [])
  /\ exists e', do_clear env_a [[65]] false false [] = Some e' /\ e' [65] = Some (mkTbl 0 []) /\ env_a [65] = Some table_a.
Proof. exact clear_silent_lemma. Qed.
Print Assumptions C88_clear_unanswered_refuted.

(** compact without --replace leaves the source and writes all of it to the target. *)
Theorem C88_compact : forall (A : Type) (f : @files A) c nobak, f Source = Some c -> f Target = None ->
  exists f', do_compact f false nobak = ([f'; f], true) /\ f' Source = Some c /\ f' Target = Some c /\ f' Backup = f Backup.
Proof. exact @compact_plain. Qed.
Print Assumptions C88_compact.
(** Whenever compact stops, the content is in one of the three files. *)
Theorem C88_compact_loses_nothing : forall (A : Type) (f : @files A) c replace nobak, f Source = Some c ->
  forall x, In x (fst (do_compact f replace nobak)) -> exists p, x p = Some c.
Proof. exact @compact_keeps. Qed.
Print Assumptions C88_compact_loses_nothing.
(** The full property: with --replace the source is the compacted database. The command fails always, and leaves no database there. *)
Theorem C88_compact_replace_refuted : forall (A : Type) (f : @files A) c nobak, f Source = Some c ->
  exists f' l, do_compact f true nobak = (f' :: l, false) /\ f' Source = None /\ f' Target = Some c.
Proof. exact compact_replace_lemma. Qed.
Print Assumptions C88_compact_replace_refuted.
Example C88_compact_nonvacuous : exists f' l, do_compact (fun p => match p with Source => Some 5 | _ => None end) true false = (f' :: l, false) /\ f' Source = None /\ f' Backup = Some 5 /\ f' Target = Some 5.
Proof. exact compact_case. Qed.

(** copy of one table, for every size of a batch: the last commit has the table, the commits before a prefix of it, and other
    tables are as before in all of them. The full property is about any number of tables (see below). *)
Theorem C88_copy_one_partial : forall (o : copy_options) (tgt : env) before n t after,
  c_create o = false -> c_upsert o = false -> (forall m u, In (m, u) (before ++ after) -> ~ wanted o m u) ->
  wanted o n t -> in_order t -> t_rows t <> [] -> countable_rows o t -> (tgt n = None \/ tgt n = Some (mkTbl (t_flags t) [])) ->
  exists last commits, do_copy o (before ++ (n, t) :: after) (Some tgt) = (last :: commits, true)
    /\ last n = Some t /\ (forall m, m <> n -> last m = tgt m)
    /\ Forall (fun y => (exists p, prefix_of p (t_rows t) /\ y n = Some (mkTbl (t_flags t) p)) /\ forall m, m <> n -> y m = tgt m) commits.
Proof. exact copy_exact_lemma. Qed.
Print Assumptions C88_copy_one_partial.
(** The same with --upsert, into a table with records. *)
Theorem C88_copy_upsert_partial : forall (o : copy_options) (tgt : env) before n t t' after,
  c_create o = false -> c_upsert o = true -> (forall m u, In (m, u) (before ++ after) -> ~ wanted o m u) ->
  wanted o n t -> in_order t -> t_rows t <> [] -> countable_rows o t -> tgt n = Some t' -> t_flags t' = t_flags t -> in_order t' ->
  exists last commits u, do_copy o (before ++ (n, t) :: after) (Some tgt) = (last :: commits, true)
    /\ last n = Some u /\ t_flags u = t_flags t /\ in_order u
    /\ (dupsort t = true -> forall e, In e (t_rows u) <-> In e (t_rows t) \/ In e (t_rows t'))
    /\ (dupsort t = false -> forall k, lookup (t_rows u) k = match lookup (t_rows t) k with Some v => Some v | None => lookup (t_rows t') k end)
    /\ forall m, m <> n -> last m = tgt m.
Proof. exact copy_upsert_lemma. Qed.
Print Assumptions C88_copy_upsert_partial.
(** No commit touches a table that is not wanted, or one with records unless --upsert is given. *)
Theorem C88_copy_touches : forall (o : copy_options) (tgt : env) src y, In y (fst (do_copy o src (Some tgt))) ->
  forall m, (forall t, In (m, t) src -> ~ wanted o m t \/ (exists t', tgt m = Some t' /\ t_rows t' <> [] /\ c_upsert o = false)) -> y m = tgt m.
Proof. exact copy_keeps. Qed.
Print Assumptions C88_copy_touches.
Example C88_copy_nonvacuous : exists last commits, do_copy opts0 [([68], table_d)] (Some env_a) = (last :: commits, true) /\ last [68] = Some table_d /\ last [65] = Some table_a /\ length commits = 1%nat.
Proof. exact copy_case. Qed.
Example C88_copy_hypotheses : wanted opts0 [68] table_d /\ in_order table_d /\ in_order table_a /\ countable_rows opts0 table_a.
Proof. exact (conj (proj2 (wanted_all _ _)) (conj table_d_in_order (conj table_a_in_order (proj1 countable_a)))). Qed.
Example C88_copy_upsert_nonvacuous : exists last commits, do_copy optsu [([64], table_d); ([65], mkTbl 0 [([1], [3]); ([3], [4])])] (Some env_a) = (last :: commits, true)
  /\ last [65] = Some (mkTbl 0 [([1], [3]); ([2], [9; 0; 0; 0]); ([3], [4])]) /\ last [64] = None.
Proof. exact upsert_case. Qed.
(** After the first table with records the transaction is over: the second one is not copied and the command fails, for every
    source whose first table fits in a batch. *)
Theorem C88_copy_two_refuted : forall (o : copy_options) (tgt : env) n1 t1 n2 t2 rest,
  c_create o = false -> c_upsert o = false -> wanted o n1 t1 -> wanted o n2 t2 -> n1 <> n2 -> in_order t1 -> t_rows t1 <> [] -> countable_rows o t1 ->
  tgt n1 = None -> tgt n2 = None -> sum (map size_of (t_rows t1)) <= c_commitsize o ->
  exists last, do_copy o ((n1, t1) :: (n2, t2) :: rest) (Some tgt) = ([last], false) /\ last n1 = Some t1 /\ last n2 = None.
Proof. exact copy_second. Qed.
Print Assumptions C88_copy_two_refuted.
Example C88_copy_two_nonvacuous : exists last, do_copy opts1 [([65], table_a); ([68], table_d)] (Some no_tables) = ([last], false) /\ last [65] = Some table_a /\ last [68] = None.
Proof. exact copy_two_lemma. Qed.
(** With --create nothing is ever copied. *)
Theorem C88_copy_create_refuted : forall o src tgt, c_create o = true -> do_copy o src tgt = ([], false).
Proof. exact copy_create. Qed.
Print Assumptions C88_copy_create_refuted.

(** C89: for_each calls as often as there are records, as long as it is told to go on. *)
Theorem C89_for_each_calls : forall (S : Type) (func : S -> entry -> bool * S) t s, (forall s e, fst (func s e) = true) -> fst (for_each t func s) = N.of_nat (length t).
Proof. exact @for_each_count. Qed.
Print Assumptions C89_for_each_calls.
(** It walks the records as they are if they are all the same; the full property is [for_each t func s = walk func t s]. *)
Theorem C89_for_each_partial : forall (S : Type) (func : S -> entry -> bool * S) t s, (forall e e', In e t -> In e' t -> e = e') -> for_each t func s = walk func t s.
Proof. exact @for_each_same. Qed.
Print Assumptions C89_for_each_partial.
(** It hands out the first record every time. *)
Theorem C89_for_each_refuted : (forall (S : Type) (func : S -> entry -> bool * S) d t s, for_each (d :: t) func s = walk func (repeat d (length (d :: t))) s)
  /\ ordered two_rows /\ for_each two_rows collect [] <> walk collect two_rows [].
Proof. exact (conj (@for_each_first) for_each_wrong). Qed.
Print Assumptions C89_for_each_refuted.
(** for_count should call at most [k] times and at most once per record. With too few records it calls [k] times nevertheless. *)
Theorem C89_for_count_past_end_refuted : forall (S : Type) (func : S -> entry -> bool * S) t s k fuel,
  (forall s e, fst (func s e) = true) -> t <> [] -> (length t <= k)%nat -> N.of_nat k < 2 ^ 64 -> (k < fuel)%nat -> exists s', for_count fuel t func (N.of_nat k) s = Some (N.of_nat k, s').
Proof. exact @for_count_few. Qed.
Print Assumptions C89_for_count_past_end_refuted.
(** With more records than [k] it goes on for 2^64 further rounds. *)
Theorem C89_for_count_overruns_refuted : forall (S : Type) (func : S -> entry -> bool * S) t s k fuel,
  (forall s e, fst (func s e) = true) -> (k < length t)%nat -> N.of_nat k < 2 ^ 64 -> N.of_nat fuel <= N.of_nat k + 2 ^ 64 -> for_count fuel t func (N.of_nat k) s = None.
Proof. exact @for_count_many. Qed.
Print Assumptions C89_for_count_overruns_refuted.
(** The free list: the total of the pages is right if all records stand for the same number of pages, and not in general. *)
Theorem C89_freelist_partial : forall ps free, (forall e, In e free -> pages_of e = pages_of (hd ([], []) free)) -> f_pages (get_free_info ps free) = sum (map pages_of free) mod 2 ^ 64.
Proof. exact free_same. Qed.
Print Assumptions C89_freelist_partial.
Example C89_walk_nonvacuous : (forall s e, fst (collect s e) = true) /\ fst (for_each two_rows collect []) = 2
  /\ for_count 10 two_rows collect 3 [] = Some (3, repeat ([1], [7; 0; 0; 0]) 3) /\ for_count 1000 two_rows collect 1 [] = None
  /\ f_pages (get_free_info 4096 [([1], [7; 0; 0; 0; 1]); ([2], [7; 0; 0; 0; 2])]) = 14.
Proof. split; [reflexivity|]. vm_compute. repeat split; reflexivity. Qed.
Theorem C89_freelist_refuted : exists ps free, ordered free /\ f_pages (get_free_info ps free) <> sum (map pages_of free) mod 2 ^ 64.
Proof. exact freelist_wrong. Qed.
Print Assumptions C89_freelist_refuted.
(** scan adds up the lengths of keys and values. *)
Theorem C89_scan : forall t k d, k < 2 ^ 64 -> d < 2 ^ 64 ->
  scan t k d = ((k + sum (map (fun e => blen (fst e)) t)) mod 2 ^ 64, (d + sum (map (fun e => blen (snd e)) t)) mod 2 ^ 64).
Proof. exact scan_sums. Qed.
Print Assumptions C89_scan.
Example C89_scan_nonvacuous : scan two_rows 0 0 = (2, 8).
Proof. exact eq_refl. Qed.
